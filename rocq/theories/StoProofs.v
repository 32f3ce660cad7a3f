From Coq Require Import String Factorial.
From Verif Require Import Base BaseProofs UtilModel ExprModel SysModel OcpModel StoModel StoSpec.
Local Open Scope list_scope.
Local Open Scope cmd_scope.

Lemma soundb_ok : forall g, soundb g = true <-> sound g.
Proof.
  intros g. unfold soundb, sound, square. rewrite !andb_true_iff, !Nat.eqb_eq, forallb_forall, Forall_forall.
  split.
  - intros [[A B] C]. repeat split; auto. intros r Hr. apply Nat.eqb_eq. auto.
  - intros [A [B C]]. repeat split; auto. intros r Hr. apply Nat.eqb_eq. auto.
Qed.

Lemma shape_is_ok : forall n M, shape_is n M = true <-> square n M.
Proof.
  intros n M. unfold shape_is, square. rewrite andb_true_iff, Nat.eqb_eq, forallb_forall, Forall_forall.
  split; intros [A B]; split; auto; intros r Hr; [apply Nat.eqb_eq|apply Nat.eqb_eq]; auto.
Qed.

Lemma columns_square : forall n M, square n M -> M <> [] -> columns M = n.
Proof. intros n [|r M] [A B] H; [congruence|]. simpl. inversion B; auto. Qed.

Lemma nth_repeat_zero : forall m k, nth k (repeat 0%Q m) 0%Q = 0%Q.
Proof. induction m; destruct k; simpl; auto. Qed.

Lemma diagcat_square : forall n m A B, square n A -> square m B -> A <> [] -> square (n + m) (diagcat A B).
Proof.
  intros n m A B [LA FA] [LB FB] NA. unfold diagcat. split.
  - rewrite app_length, !map_length. lia.
  - apply Forall_app. split; apply Forall_map.
    + rewrite Forall_forall in FA. apply Forall_forall. intros r Hr. rewrite app_length, repeat_length, (FA r Hr).
      destruct B as [|b B]; simpl in *; [lia|]. inversion FB; subst. lia.
    + rewrite Forall_forall in FB. apply Forall_forall. intros r Hr.
      rewrite app_length, repeat_length, (FB r Hr), (columns_square n A); auto. split; auto.
Qed.

Lemma diagcat_entry : forall n m A B i j, square n A -> square m B -> A <> [] -> i < n + m -> j < n + m ->
  entry (diagcat A B) i j =
  if i <? n then if j <? n then entry A i j else 0%Q
  else if j <? n then 0%Q else entry B (i - n) (j - n).
Proof.
  intros n m A B i j [LA FA] [LB FB] NA Hi Hj. unfold diagcat, entry.
  destruct (i <? n) eqn:I.
  - apply Nat.ltb_lt in I.
    rewrite app_nth1 by (rewrite map_length; lia).
    rewrite (nth_indep _ [] ((fun r => r ++ repeat 0%Q (columns B)) [])) by (rewrite map_length; lia).
    rewrite (map_nth (fun r => r ++ repeat 0%Q (columns B))).
    assert (L : length (nth i A []) = n) by (rewrite Forall_forall in FA; apply FA, nth_In; lia).
    destruct (j <? n) eqn:J.
    + apply Nat.ltb_lt in J. apply app_nth1. lia.
    + apply Nat.ltb_ge in J. rewrite app_nth2 by lia. apply nth_repeat_zero.
  - apply Nat.ltb_ge in I.
    rewrite app_nth2 by (rewrite map_length; lia). rewrite map_length, LA.
    rewrite (nth_indep _ [] ((fun r => repeat 0%Q (columns A) ++ r) [])) by (rewrite map_length; lia).
    rewrite (map_nth (fun r => repeat 0%Q (columns A) ++ r)).
    rewrite (columns_square n A) by (auto; split; auto).
    destruct (j <? n) eqn:J.
    + apply Nat.ltb_lt in J. rewrite app_nth1 by (rewrite repeat_length; lia). apply nth_repeat_zero.
    + apply Nat.ltb_ge in J. rewrite app_nth2 by (rewrite repeat_length; lia). rewrite repeat_length. reflexivity.
Qed.

Lemma cov_at_app : forall gs g i j, length (g_cov g) = length (g_syms g) -> Forall (fun r => length r = length (g_syms g)) (g_cov g) ->
  let n := length (flat_map g_syms gs) in
  i < n + length (g_syms g) -> j < n + length (g_syms g) ->
  cov_at (gs ++ [g]) i j =
  if i <? n then if j <? n then cov_at gs i j else 0%Q
  else if j <? n then 0%Q else entry (g_cov g) (i - n) (j - n).
Proof.
  induction gs as [|h gs IH]; intros g i j L F; simpl; intros Hi Hj.
  - destruct (Nat.ltb_spec i (length (g_syms g))); [|lia]. destruct (Nat.ltb_spec j (length (g_syms g))); [|lia].
    rewrite !Nat.sub_0_r. reflexivity.
  - rewrite app_length in *.
    destruct (Nat.ltb_spec i (length (g_syms h))); destruct (Nat.ltb_spec j (length (g_syms h)));
      destruct (Nat.ltb_spec i (length (g_syms h) + length (flat_map g_syms gs)));
      destruct (Nat.ltb_spec j (length (g_syms h) + length (flat_map g_syms gs))); try lia; auto.
    all: rewrite IH by (auto; lia).
    all: destruct (Nat.ltb_spec (i - length (g_syms h)) (length (flat_map g_syms gs)));
         destruct (Nat.ltb_spec (j - length (g_syms h)) (length (flat_map g_syms gs))); try lia; auto.
    unfold entry. f_equal; [lia|]. f_equal. lia.
Qed.

Lemma describes_nil : describes [] [] [] [] [].
Proof. repeat split; auto. simpl. intros. lia. Qed.

Lemma describes_none : forall gs syms mean cov dist, describes gs syms mean cov dist -> (cov = [] <-> syms = []).
Proof.
  intros gs syms mean cov dist (_ & _ & _ & _ & _ & [L _] & _). destruct syms, cov; simpl in L; split; intros E; auto; discriminate.
Qed.

(** One more group, with the covariance taken alone, attached, or left when the group is empty. *)
Lemma describes_more : forall gs syms mean cov dist g cov',
  describes gs syms mean cov dist -> sound g ->
  (cov <> [] /\ cov' = diagcat cov (g_cov g)) \/ (cov = [] /\ cov' = g_cov g) \/ (g_cov g = [] /\ cov' = cov) ->
  describes (gs ++ [g]) (syms ++ g_syms g) (mean ++ g_mean g) cov' (dist ++ repeat (g_dist g) (length (g_syms g))).
Proof.
  intros gs syms mean cov dist g cov' D [SM [SL SF]] C.
  pose proof (describes_none _ _ _ _ _ D) as N.
  destruct D as (Hs & Hm & Hd & Lm & Ld & [Lc Fc] & E).
  unfold describes. rewrite !flat_map_app. simpl. rewrite !app_nil_r.
  assert (LS : length syms = length (flat_map g_syms gs)) by (rewrite Hs; reflexivity).
  split; [congruence|]. split; [congruence|]. split; [congruence|].
  split; [rewrite !app_length; lia|]. split; [rewrite !app_length, repeat_length; lia|].
  destruct C as [[NC ->]|[[NC ->]|[NC ->]]].
  - split; [rewrite app_length; apply diagcat_square; auto; split; auto|].
    intros i j Hi Hj. rewrite app_length in *.
    rewrite (diagcat_entry (length syms) (length (g_syms g))); auto; try (split; auto).
    rewrite cov_at_app by (auto; lia). rewrite <- LS.
    destruct (Nat.ltb_spec i (length syms)); destruct (Nat.ltb_spec j (length syms)); auto.
  - apply N in NC. rewrite NC in *. simpl in LS. simpl. split; [split; auto|].
    intros i j Hi Hj. rewrite cov_at_app by (auto; lia). rewrite <- LS. simpl. rewrite !Nat.sub_0_r. reflexivity.
  - rewrite NC in SL. simpl in SL. destruct (g_syms g) eqn:G; [|discriminate]. rewrite app_nil_r. split; [split; auto|].
    intros i j Hi Hj. rewrite cov_at_app; rewrite ?G; rewrite ?NC; simpl; auto; try lia.
    rewrite <- LS. destruct (Nat.ltb_spec i (length syms)); [|lia]. destruct (Nat.ltb_spec j (length syms)); [|lia]. auto.
Qed.

(** ** What each call does *)

Definition fields_rest (s s' : socp) : Prop :=
  s_problem s' = s_problem s /\ s_ineq s' = s_ineq s /\ s_rhs s' = s_rhs s /\ s_prob s' = s_prob s.

Lemma set_uncertain_run : forall a m c d s,
  set_parameter_as_uncertain_parameter a m c d s =
  if soundb (mkGroup a m c d) then
    (mkSocp (s_problem s) (s_ineq s) (s_rhs s) (s_prob s) (s_p_unc s ++ a) (s_p_mean s ++ m)
       (match s_p_cov s with [] => c | _ => diagcat (s_p_cov s) c end) (s_p_dist s ++ repeat d (length a))
       (s_ic s) (s_ic_mean s) (s_ic_cov s) (s_ic_dist s), Ok tt)
  else (s, Raise ValueError).
Proof.
  intros a m c d s. unfold set_parameter_as_uncertain_parameter, cguard, cbind, cmodify, soundb, shape_is. simpl.
  destruct (length a =? length m) eqn:E; simpl; auto. apply Nat.eqb_eq in E. rewrite E.
  destruct ((length c =? length m) && forallb (fun r => length r =? length m) c); simpl; auto.
  destruct s as [? ? ? ? ? ? [|] ? ? ? ? ?]; simpl; reflexivity.
Qed.

Lemma set_initial_run : forall a m c d s,
  set_initial_condition_as_uncertain a m c d s =
  if soundb (mkGroup a m c d) then
    (mkSocp (s_problem s) (s_ineq s) (s_rhs s) (s_prob s) (s_p_unc s) (s_p_mean s) (s_p_cov s) (s_p_dist s)
       (s_ic s ++ a) (s_ic_mean s ++ m)
       (match c, s_ic_cov s with _ :: _, _ :: _ => diagcat (s_ic_cov s) c | _ :: _, [] => c | [], _ => s_ic_cov s end)
       (s_ic_dist s ++ repeat d (length a)), Ok tt)
  else (s, Raise ValueError).
Proof.
  intros a m c d s. unfold set_initial_condition_as_uncertain, cguard, cbind, cmodify, soundb, shape_is. simpl.
  destruct (length a =? length m) eqn:E; simpl; auto. apply Nat.eqb_eq in E. rewrite E.
  destruct ((length c =? length m) && forallb (fun r => length r =? length m) c) eqn:F; simpl; auto.
  destruct s as [? ? ? ? ? ? ? ? ? ? [|] ?]; destruct c; simpl; reflexivity.
Qed.

Lemma chance_run : forall g prob r w s,
  include_time_chance_inequality g prob r w s =
  (match chances [SChance g prob r w] with
   | [(g', r', p')] => mkSocp (s_problem s) (s_ineq s ++ g') (s_rhs s ++ r') (s_prob s ++ p') (s_p_unc s) (s_p_mean s)
                         (s_p_cov s) (s_p_dist s) (s_ic s) (s_ic_mean s) (s_ic_cov s) (s_ic_dist s)
   | _ => s
   end, match chances [SChance g prob r w] with [] => Raise ValueError | _ => Ok tt end).
Proof.
  intros g prob [r|] w s; unfold include_time_chance_inequality, cguard, cbind, cmodify; simpl.
  - destruct (length g =? length r) eqn:E; simpl; reflexivity.
  - rewrite repeat_length, Nat.eqb_refl. simpl. reflexivity.
Qed.

Definition kept (ops : list socp_op) (o : ocp) (same : expr -> expr -> bool) (s : socp) : Prop :=
  describes (parameter_groups ops) (s_p_unc s) (s_p_mean s) (s_p_cov s) (s_p_dist s) /\
  describes (initial_groups ops) (s_ic s) (s_ic_mean s) (s_ic_cov s) (s_ic_dist s) /\
  s_ineq s = flat_map (fun c => fst (fst c)) (chances ops) /\
  s_rhs s = flat_map (fun c => snd (fst c)) (chances ops) /\
  s_prob s = flat_map snd (chances ops) /\ length (s_rhs s) = length (s_ineq s) /\
  s_problem s = run_caught (ocp_step same) (problem_calls ops) o.

Lemma flat_map_last : forall (A B : Type) (f : A -> list B) l a, flat_map f (l ++ [a]) = flat_map f l ++ f a.
Proof. intros. rewrite flat_map_app. simpl. rewrite app_nil_r. reflexivity. Qed.
Lemma run_caught_app_local : forall (S O A : Type) (step : O -> cmd S A) l1 l2 s,
  run_caught step (l1 ++ l2) s = run_caught step l2 (run_caught step l1 s).
Proof. intros. apply fold_left_app. Qed.

Lemma kept_step : forall same o ops s op, kept ops o same s -> kept (ops ++ [op]) o same (fst (socp_step same op s)).
Proof.
  intros same o ops s op (P & I & A & B & C & L & O).
  unfold kept, parameter_groups, initial_groups, problem_calls, chances in *. rewrite !flat_map_last.
  rewrite run_caught_app_local, <- O.
  destruct op as [a m c d|a m c d|a m c d|g prob r w|op]; simpl socp_step.
  - unfold include_uncertain_parameter, cbind, on_problem, on_model, include_parameter, cmodify. simpl.
    rewrite set_uncertain_run. unfold if_sound. destruct (soundb (mkGroup a m c d)) eqn:S; simpl; rewrite ?app_nil_r.
    + apply soundb_ok in S. split; [|repeat split; auto; apply I].
      apply (describes_more _ _ _ _ _ (mkGroup a m c d) _ P S). simpl.
      destruct (s_p_cov s); [right; left; auto|left; split; [discriminate|reflexivity]].
    + repeat split; auto; try apply P; apply I.
  - rewrite set_uncertain_run. unfold if_sound. destruct (soundb (mkGroup a m c d)) eqn:S; simpl; rewrite ?app_nil_r.
    + apply soundb_ok in S. split; [|repeat split; auto; apply I].
      apply (describes_more _ _ _ _ _ (mkGroup a m c d) _ P S). simpl.
      destruct (s_p_cov s); [right; left; auto|left; split; [discriminate|reflexivity]].
    + repeat split; auto; try apply P; apply I.
  - rewrite set_initial_run. unfold if_sound. destruct (soundb (mkGroup a m c d)) eqn:S; simpl; rewrite ?app_nil_r.
    + apply soundb_ok in S. split; [exact P|]. split; [|repeat split; auto].
      apply (describes_more _ _ _ _ _ (mkGroup a m c d) _ I S). simpl.
      destruct c; [right; right; auto|]. destruct (s_ic_cov s); [right; left; auto|left; split; [discriminate|reflexivity]].
    + repeat split; auto; try apply P; apply I.
  - rewrite chance_run. destruct r as [r|]; simpl.
    + destruct (length g =? length r) eqn:E; simpl; rewrite ?app_nil_r, ?flat_map_last; simpl.
      * apply Nat.eqb_eq in E. split; [exact P|]. split; [exact I|]. rewrite A, B, C. repeat split; auto.
        rewrite <- A, <- B, !app_length. lia.
      * repeat split; auto; try apply P; apply I.
    + rewrite !app_nil_r, ?flat_map_last; simpl. split; [exact P|]. split; [exact I|]. rewrite A, B, C. repeat split; auto.
      rewrite <- A, <- B, !app_length, repeat_length. lia.
  - rewrite !app_nil_r. unfold on_problem. destruct (ocp_step same op (s_problem s)) as [o' x] eqn:E. simpl. rewrite E.
    repeat split; auto; try apply P; apply I.
Qed.

Lemma stochastic_history : forall same o ops,
  let s := run_caught (socp_step same) ops (new_socp o) in
  describes (parameter_groups ops) (s_p_unc s) (s_p_mean s) (s_p_cov s) (s_p_dist s) /\
  describes (initial_groups ops) (s_ic s) (s_ic_mean s) (s_ic_cov s) (s_ic_dist s) /\
  s_ineq s = flat_map (fun c => fst (fst c)) (chances ops) /\
  s_rhs s = flat_map (fun c => snd (fst c)) (chances ops) /\
  s_prob s = flat_map snd (chances ops) /\ length (s_rhs s) = length (s_ineq s) /\
  s_problem s = run_caught (ocp_step same) (problem_calls ops) o.
Proof.
  intros same o ops. induction ops as [|op ops IH] using rev_ind.
  - simpl. repeat split; auto; simpl; intros; lia.
  - cbv zeta in *. rewrite run_caught_app_local. apply (kept_step same o ops _ op IH).
Qed.

Lemma parameter_refused : forall a m c d s, ~ sound (mkGroup a m c d) ->
  set_parameter_as_uncertain_parameter a m c d s = (s, Raise ValueError).
Proof.
  intros a m c d s H. rewrite set_uncertain_run. destruct (soundb (mkGroup a m c d)) eqn:S; auto. apply soundb_ok in S. contradiction.
Qed.
Lemma initial_refused : forall a m c d s, ~ sound (mkGroup a m c d) ->
  set_initial_condition_as_uncertain a m c d s = (s, Raise ValueError).
Proof.
  intros a m c d s H. rewrite set_initial_run. destruct (soundb (mkGroup a m c d)) eqn:S; auto. apply soundb_ok in S. contradiction.
Qed.
Lemma include_refused : forall a m c d s, ~ sound (mkGroup a m c d) -> a <> [] ->
  exists s', include_uncertain_parameter a m c d s = (s', Raise ValueError) /\ s' <> s /\
    m_p (o_model (s_problem s')) = m_p (o_model (s_problem s)) ++ a /\ s_p_unc s' = s_p_unc s.
Proof.
  intros a m c d s H N. unfold include_uncertain_parameter, cbind, on_problem, on_model, include_parameter, cmodify. simpl.
  rewrite parameter_refused by auto. eexists. split; [reflexivity|]. simpl. repeat split; auto.
  intros E. apply (f_equal (fun s => length (m_p (o_model (s_problem s))))) in E. simpl in E. rewrite app_length in E.
  destruct a; [congruence|]. simpl in E. lia.
Qed.
Lemma chance_refused : forall g prob r w s, length g <> length r ->
  include_time_chance_inequality g prob (Some r) w s = (s, Raise ValueError).
Proof. intros. rewrite chance_run. simpl. apply Nat.eqb_neq in H. rewrite H. reflexivity. Qed.
Lemma chance_any : forall g prob r w s, length g = length r ->
  exists s', include_time_chance_inequality g prob (Some r) w s = (s', Ok tt) /\
    n_g_stochastic s' = n_g_stochastic s + length g /\ length (s_prob s') = length (s_prob s) + length prob.
Proof.
  intros. rewrite chance_run. simpl. apply Nat.eqb_eq in H. rewrite H. eexists. split; [reflexivity|].
  unfold n_g_stochastic. simpl. rewrite !app_length. auto.
Qed.
Lemma chance_when : forall g prob r w w' s,
  include_time_chance_inequality g prob r w s = include_time_chance_inequality g prob r w' s.
Proof. reflexivity. Qed.

Lemma cov_symmetric : forall gs, (forall g, In g gs -> forall i j, entry (g_cov g) i j = entry (g_cov g) j i) ->
  forall i j, cov_at gs i j = cov_at gs j i.
Proof.
  induction gs as [|g gs IH]; intros H i j; simpl; auto.
  destruct (i <? length (g_syms g)); destruct (j <? length (g_syms g)); auto.
  - apply (H g). left; auto.
  - apply IH. intros; apply H; right; auto.
Qed.

Lemma indices_never : forall s, get_p_unc_indices s = Raise AttributeError /\
  get_p_without_p_unc s = Raise AttributeError /\ get_uncertain_initial_cond_indices s = Raise AttributeError.
Proof. intros. repeat split; reflexivity. Qed.

Lemma convert_never : forall normal chol v, exists v' e, convert normal chol v = (v', Raise e) /\ v_socp v' = v_socp v.
Proof.
  intros. unfold convert. destruct (sample_parameters normal chol v); eexists; eexists; split; reflexivity.
Qed.
Lemma convert_attribute : forall normal chol v samples, sample_parameters normal chol v = Ok samples ->
  snd (convert normal chol v) = Raise AttributeError /\ v_sampled (fst (convert normal chol v)) = Some samples.
Proof. intros. unfold convert. rewrite H. split; reflexivity. Qed.

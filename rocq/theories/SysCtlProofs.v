(** Proofs about controls: expressions, parametrisation and connection. *)
From Verif Require Import Base BaseProofs UtilModel UtilProofs ExprModel ExprProofs SysModel SysSpec SysProofs SysEqProofs.
Local Open Scope cmd_scope.

Lemma not_in_memb : forall l s, not_in l s = negb (memb sym_eqb s l).
Proof.
  intros l s. unfold not_in. destruct (memb sym_eqb s l) eqn:E; destruct (in_dec Nat.eq_dec s l) as [H|H]; try reflexivity.
  - apply (memb_spec _ _ sym_eqb_eq) in E. contradiction.
  - apply (memb_spec _ _ sym_eqb_eq) in H. congruence.
Qed.

Lemma not_in_true : forall l s, not_in l s = true <-> ~ In s l.
Proof.
  intros l s. unfold not_in. destruct (in_dec Nat.eq_dec s l); split; intros; try discriminate; try tauto; reflexivity.
Qed.

Definition pairs (m : model) : list (sym * expr) := combine (m_u m) (m_u_expr m).
Definition ctl_count (m : model) : Prop := length (m_u_expr m) = length (m_u m).

Lemma gather_combine : forall (A B : Type) (a : list A) (b : list B) idx,
    length a = length b ->
    gather b idx = map snd (gather (combine a b) idx) /\
    gather a idx = map fst (gather (combine a b) idx).
Proof.
  intros A B a b idx Hlen. unfold gather.
  assert (H : forall i, nth_error (combine a b) i =
     match nth_error a i, nth_error b i with Some x, Some y => Some (x, y) | _, _ => None end).
  { clear idx. revert b Hlen. induction a as [|x a IH]; intros [|y b] Hlen [|i]; simpl; try reflexivity; try discriminate.
    apply IH. simpl in Hlen; lia. }
  assert (Hs : forall i, nth_error a i = None <-> nth_error b i = None).
  { intros i. rewrite !nth_error_None. lia. }
  induction idx as [|i idx [IH1 IH2]]; simpl; [split; reflexivity|].
  rewrite H. specialize (Hs i). destruct (nth_error a i) eqn:Ea, (nth_error b i) eqn:Eb; simpl.
  - split; f_equal; assumption.
  - exfalso. destruct Hs as [_ Hs]. discriminate (Hs eq_refl).
  - exfalso. destruct Hs as [Hs _]. discriminate (Hs eq_refl).
  - split; assumption.
Qed.

Lemma remove_u_expr : forall var (u : list sym) (ue : list expr),
    length ue = length u ->
    remove_variables_from_vector_by_indices (map Z.of_nat (find_syms var u)) ue =
    Ok (map snd (drop_pairs var (combine u ue))).
Proof.
  intros var u ue Hlen.
  destruct (remove_variables_from_vector_by_indices (map Z.of_nat (find_syms var u)) ue) as [r|e] eqn:E.
  - f_equal. apply remove_by_indices_form in E. subst r.
    destruct (gather_combine _ _ u ue
      (filter (fun ind => negb (memb Z.eqb (Z.of_nat ind) (map Z.of_nat (find_syms var u)))) (seq 0 (length ue)))
      (eq_sym Hlen)) as [Hg _]. rewrite Hg. f_equal. unfold drop_pairs.
    replace (length ue) with (length (combine u ue)) by (rewrite combine_length; lia).
    apply gather_filter_elements. intros i [c e] Hi. cbn [fst].
    rewrite not_in_memb. f_equal.
    assert (Hc : nth_error u i = Some c).
    { clear - Hi. revert ue i Hi. induction u as [|a u IH]; intros [|b ue] [|i] Hi; simpl in *; try discriminate.
      - injection Hi as -> _. reflexivity.
      - eapply IH, Hi. }
    apply eq_true_iff_eq. rewrite memb_Z, (memb_spec _ _ sym_eqb_eq), in_map_iff. split.
    + intros [j [Hj Hin]]. apply Nat2Z.inj in Hj. subst j.
      apply (find_indices_In _ sym_eqb_eq) in Hin. destruct Hin as [v [Hv Hn]]. congruence.
    + intros Hin. exists i. split; [reflexivity|]. apply (find_indices_In _ sym_eqb_eq).
      exists c. split; assumption.
  - exfalso. assert (Hx : exists e, remove_variables_from_vector_by_indices (map Z.of_nat (find_syms var u)) ue = Raise e)
      by (exists e; exact E).
    apply remove_by_indices_error in Hx. destruct Hx as [i [Hi Hb]].
    apply in_map_iff in Hi. destruct Hi as [j [<- Hj]].
    apply (find_indices_In _ sym_eqb_eq) in Hj. destruct Hj as [v [_ Hn]].
    assert (j < length u)%nat by (apply nth_error_Some; congruence). lia.
Qed.

Lemma drop_pairs_fst : forall var u (ue : list expr),
    length ue = length u ->
    map fst (drop_pairs var (combine u ue)) = filter (not_in var) u.
Proof.
  intros var u. unfold drop_pairs. induction u as [|a u IH]; intros [|b ue] H; simpl in *; try discriminate; [reflexivity|].
  destruct (not_in var a); simpl; [f_equal|]; apply IH; lia.
Qed.

Lemma combine_fst_snd : forall (A B : Type) (l : list (A * B)), combine (map fst l) (map snd l) = l.
Proof. intros A B l; induction l as [|[a b] l IH]; simpl; [reflexivity | f_equal; exact IH]. Qed.

Lemma remove_syms_cases : forall var l,
    (forall v, In v var -> ~ In v l) /\ remove_syms var l = Raise ValueError \/
    (exists v, In v var /\ In v l) /\ remove_syms var l = Ok (filter (not_in var) l).
Proof.
  intros var l. destruct (remove_variables_spec _ sym_eqb_eq var l) as [[H1 H2]|[H1 H2]].
  - left; split; assumption.
  - right; split; [exact H1|]. unfold remove_syms. rewrite H2. f_equal. apply filter_ext. intros s.
    symmetry; apply not_in_memb.
Qed.

Definition dropped_u (c : list sym) (m : model) : model :=
  set_u (filter (not_in c) (m_u m)) (set_u_expr (map snd (drop_pairs c (pairs m))) m).

Lemma remove_control_eq : forall c m,
    ctl_count m ->
    ((forall v, In v c -> ~ In v (m_u m)) /\ remove_control c m = (m, Raise ValueError)) \/
    ((exists v, In v c /\ In v (m_u m)) /\ (forall v, In v c -> ~ In v (m_u_par m)) /\
     remove_control c m = (dropped_u c m, Raise ValueError)) \/
    ((exists v, In v c /\ In v (m_u m)) /\ (exists v, In v c /\ In v (m_u_par m)) /\
     remove_control c m = (set_u_par (filter (not_in c) (m_u_par m)) (dropped_u c m), Ok tt)).
Proof.
  intros c m Hc. unfold remove_control; run.
  rewrite (remove_u_expr c (m_u m) (m_u_expr m) Hc). fields.
  destruct (remove_syms_cases c (m_u m)) as [[H1 H2]|[H1 H2]].
  - left. split; [exact H1|]. rewrite H2. f_equal.
    assert (E : drop_pairs c (combine (m_u m) (m_u_expr m)) = combine (m_u m) (m_u_expr m)).
    { unfold drop_pairs. apply filter_all. intros [a e] Hin. apply not_in_true. intros Hc'.
      apply (H1 a Hc'). eapply in_combine_l, Hin. }
    rewrite E. assert (E2 : map snd (combine (m_u m) (m_u_expr m)) = m_u_expr m).
    { clear - Hc. unfold ctl_count in Hc. revert Hc. generalize (m_u m). induction (m_u_expr m) as [|b l IH]; intros [|a u] H; simpl in *; try discriminate; [reflexivity|].
      f_equal. apply IH. lia. }
    rewrite E2. destruct m; reflexivity.
  - right. rewrite H2. fields.
    destruct (remove_syms_cases c (m_u_par m)) as [[H3 H4]|[H3 H4]]; fields; rewrite H4; [left | right]; repeat split; assumption.
Qed.

Lemma pairs_dropped : forall c m, ctl_count m -> pairs (dropped_u c m) = drop_pairs c (pairs m).
Proof.
  intros c m H. unfold pairs, dropped_u; fields. unfold pairs.
  rewrite <- (drop_pairs_fst c (m_u m) (m_u_expr m) H). apply combine_fst_snd.
Qed.

Lemma count_dropped : forall c m, ctl_count m -> ctl_count (dropped_u c m).
Proof.
  intros c m H. unfold ctl_count, dropped_u; fields. unfold pairs.
  rewrite <- (drop_pairs_fst c (m_u m) (m_u_expr m) H), !map_length. reflexivity.
Qed.

Lemma pairs_replaced : forall o r m, pairs (replaced o r m) = rewrite_pairs o r (pairs m).
Proof.
  intros o r m. unfold pairs, replaced, rewrite_pairs, subst_vec; fields.
  generalize (m_u m). induction (m_u_expr m) as [|b l IH]; intros [|a u]; simpl; [reflexivity|reflexivity|reflexivity|].
  f_equal. apply IH.
Qed.

Lemma count_replaced : forall o r m, ctl_count m -> ctl_count (replaced o r m).
Proof. intros o r m H. unfold ctl_count, replaced, subst_vec in *; fields. rewrite map_length. exact H. Qed.

(** Calls that do not touch controls. *)
Definition same_controls (m m' : model) : Prop :=
  m_u m' = m_u m /\ m_u_expr m' = m_u_expr m /\ m_t m' = m_t m /\ m_tau m' = m_tau m.

Lemma same_controls_trans : forall a b c, same_controls a b -> same_controls b c -> same_controls a c.
Proof. unfold same_controls; intuition congruence. Qed.
Lemma same_controls_refl : forall m, same_controls m m.
Proof. repeat split. Qed.

Definition quiet {A : Type} (c : cmd model A) : Prop := forall m, same_controls m (fst (c m)).
Lemma quiet_cbind : forall A B (c : cmd model A) (k : A -> cmd model B),
    quiet c -> (forall a, quiet (k a)) -> quiet (cbind c k).
Proof.
  intros A B c k Hc Hk m. apply (fst_cbind_frame _ same_controls_trans); [apply Hc | intros a; apply Hk].
Qed.
Lemma quiet_cret : forall A (a : A), quiet (cret a).
Proof. intros A a m; apply same_controls_refl. Qed.
Lemma quiet_cguard : forall b e, quiet (cguard b e).
Proof. intros b e m; run. destruct (b m); apply same_controls_refl. Qed.
Lemma quiet_cmodify : forall f, (forall m, same_controls m (f m)) -> quiet (cmodify f).
Proof. intros f H m; apply H. Qed.
Lemma quiet_cset : forall A (r : model -> res A) put,
    (forall a m, same_controls m (put a m)) -> quiet (cset r put).
Proof. intros A r put H m; run. destruct (r m); [apply H | apply same_controls_refl]. Qed.
Lemma quiet_include_equations : forall args f x alg, quiet (include_equations args f x alg).
Proof.
  intros args f x alg m. destruct (include_equations_frame args f x alg m) as [H1 _].
  repeat split; rewrite H1; reflexivity.
Qed.

Ltac hush :=
  repeat lazymatch goal with
    | |- quiet (cbind _ _) => apply quiet_cbind; [|intros ?]
    | |- quiet (cret _) => apply quiet_cret
    | |- quiet (cguard _ _) => apply quiet_cguard
    | |- quiet (cmodify _) => apply quiet_cmodify; intros ?; repeat split
    | |- quiet (cset _ _) => apply quiet_cset; intros ? ?; repeat split
    | |- quiet (include_equations _ _ _ _) => apply quiet_include_equations
    end.

Lemma quiet_include_state : forall var f x_0, quiet (include_state var f x_0).
Proof.
  intros var f x_0. unfold include_state. hush.
  - induction var as [|s var IH]; simpl; hush. exact IH.
  - destruct f; hush.
Qed.
Lemma quiet_remove_state : forall var, quiet (remove_state var).
Proof.
  intros var. unfold remove_state. hush. induction var as [|s var IH]; simpl; hush. exact IH.
Qed.
Lemma quiet_include_algebraic : forall var alg, quiet (include_algebraic var alg).
Proof. intros var alg. unfold include_algebraic. hush. destruct alg; hush. Qed.
Lemma quiet_remove_algebraic : forall same var eq, quiet (remove_algebraic same var eq).
Proof. intros same var eq. unfold remove_algebraic. hush. destruct eq; hush. Qed.
Lemma quiet_parametrize_loop : forall u, quiet (parametrize_loop u).
Proof. induction u as [|a u IH]; simpl; hush. exact IH. Qed.
Lemma quiet_include_parameter : forall p, quiet (include_parameter p).
Proof. intros p. unfold include_parameter. hush. Qed.
Lemma quiet_include_theta : forall p, quiet (include_theta p).
Proof. intros p. unfold include_theta. hush. Qed.
Lemma quiet_remove_parameter : forall p, quiet (remove_parameter p).
Proof. intros p. unfold remove_parameter. hush. Qed.
Lemma quiet_remove_theta : forall p, quiet (remove_theta p).
Proof. intros p. unfold remove_theta. hush. Qed.

(** ** As many expressions as controls, whatever fails *)

Lemma count_quiet : forall A (c : cmd model A), quiet c -> keeps ctl_count c.
Proof. intros A c Hc m Hm. destruct (Hc m) as [H1 [H2 _]]. unfold ctl_count in *. congruence. Qed.
Lemma count_replace : forall o r, keeps ctl_count (replace_variable o r).
Proof.
  intros o r m H. rewrite replace_variable_eq. destruct (_ =? _)%nat; [apply count_replaced, H | exact H].
Qed.
Lemma count_remove_control : forall c, keeps ctl_count (remove_control c).
Proof.
  intros c m H. destruct (remove_control_eq c m H) as [[_ E]|[[_ [_ E]]|[_ [_ E]]]]; rewrite E; cbn [fst].
  - exact H.
  - apply count_dropped, H.
  - apply (count_dropped c m H).
Qed.
Lemma count_include_control : forall c, keeps ctl_count (include_control c).
Proof.
  intros c m H. unfold include_control, ctl_count in *; run; fields. cbn [fst]. fields.
  rewrite !app_length, map_length. lia.
Qed.
Lemma count_step : forall same o, keeps ctl_count (model_step same o).
Proof.
  intros same o. destruct o; cbn [model_step].
  - apply count_quiet, quiet_include_state.
  - apply count_quiet, quiet_remove_state.
  - apply count_quiet, quiet_include_equations.
  - apply count_replace.
  - apply count_quiet, quiet_include_algebraic.
  - apply count_quiet, quiet_remove_algebraic.
  - apply count_include_control.
  - apply count_remove_control.
  - unfold parametrize_control.
    apply keeps_cbind; [apply keeps_cguard | intros _].
    apply keeps_cbind; [apply count_quiet, quiet_parametrize_loop | intros _].
    apply keeps_cbind; [apply count_quiet; hush | intros _].
    apply keeps_cbind; [apply count_quiet; destruct u_par; hush | intros _].
    apply count_replace.
  - apply count_quiet, quiet_include_parameter.
  - apply count_quiet, quiet_include_theta.
  - apply count_quiet, quiet_remove_parameter.
  - apply count_quiet, quiet_remove_theta.
  - unfold include_models. apply keeps_run_all. intros other m Hm. rewrite include_model_split.
    revert m Hm. apply (keeps_cbind ctl_count); [apply count_quiet, quiet_include_state | intros _].
    unfold include_model_rest.
    apply keeps_cbind; [apply count_quiet, quiet_include_algebraic | intros _].
    apply keeps_cbind; [apply count_include_control | intros _].
    apply keeps_cbind; [apply count_quiet, quiet_include_parameter | intros _].
    apply keeps_cbind; [apply count_quiet, quiet_include_theta | intros _].
    apply keeps_cbind; [apply count_quiet, quiet_include_equations | intros _].
    apply keeps_cbind; [|intros _]; intros m Hm; apply count_replace, Hm.
  - unfold connect. apply keeps_cbind; [apply keeps_cguard | intros _].
    apply keeps_cbind; [|intros _; apply count_remove_control].
    destruct replace; [apply count_replace|].
    apply keeps_cbind; [apply count_quiet, quiet_include_equations | intros _].
    apply count_quiet, quiet_include_algebraic.
Qed.

Lemma count_history : forall same ops t tau,
    let m := run_caught (model_step same) ops (new_model t tau) in
    length (m_u_expr m) = length (m_u m).
Proof.
  intros same ops t tau. apply (run_caught_inv _ _ _ (model_step same) ctl_count).
  - intros o s Hs. apply count_step, Hs.
  - reflexivity.
Qed.

(** ** Which expression belongs to which control *)

Record ctl_inv (t tau : sym) (m : model) : Prop := mkCtlInv
  { ci_count : ctl_count m; ci_t : m_t m = t; ci_tau : m_tau m = tau }.

Definition effect (t tau : sym) (g : list (sym * expr) -> list (sym * expr)) (c : cmd model unit) : Prop :=
  forall m m', ctl_inv t tau m -> c m = (m', Ok tt) -> ctl_inv t tau m' /\ pairs m' = g (pairs m).

Lemma effect_ext : forall t tau g g' c, (forall l, g l = g' l) -> effect t tau g c -> effect t tau g' c.
Proof. intros t tau g g' c Hg H m m' Hi E. rewrite <- Hg. apply H; assumption. Qed.

Lemma effect_cbind : forall t tau g h c k,
    effect t tau g c -> effect t tau h k -> effect t tau (fun l => h (g l)) (c ;;; k).
Proof.
  intros t tau g h c k Hc Hk m m' Hi E. apply cbind_ok in E. destruct E as [m1 [[] [E1 E2]]].
  destruct (Hc _ _ Hi E1) as [Hi1 Hp1]. destruct (Hk _ _ Hi1 E2) as [Hi2 Hp2].
  split; [exact Hi2|]. rewrite Hp2, Hp1. reflexivity.
Qed.

Lemma effect_quiet : forall t tau (c : cmd model unit), quiet c -> effect t tau (fun l => l) c.
Proof.
  intros t tau c Hc m m' [H1 H2 H3] E. specialize (Hc m). rewrite E in Hc. cbn [fst] in Hc.
  destruct Hc as [A [B [C D]]]. split; [constructor; unfold ctl_count in *; congruence|].
  unfold pairs. congruence.
Qed.

Lemma effect_replace : forall t tau o r, effect t tau (rewrite_pairs o r) (replace_variable o r).
Proof.
  intros t tau o r m m' [H1 H2 H3] E. rewrite replace_variable_eq in E.
  destruct (_ =? _)%nat; [|discriminate]. injection E as <-. split; [|apply pairs_replaced].
  constructor; [apply count_replaced, H1 | exact H2 | exact H3].
Qed.

Lemma effect_remove : forall t tau c, effect t tau (drop_pairs c) (remove_control c).
Proof.
  intros t tau c m m' [H1 H2 H3] E.
  destruct (remove_control_eq c m H1) as [[_ E']|[[_ [_ E']]|[_ [_ E']]]]; rewrite E' in E; try discriminate.
  injection E as <-. split.
  - constructor; [apply (count_dropped c m H1) | exact H2 | exact H3].
  - apply (pairs_dropped c m H1).
Qed.

Lemma combine_app_eq : forall (A B : Type) (a a' : list A) (b b' : list B),
    length a = length b -> combine (a ++ a') (b ++ b') = combine a b ++ combine a' b'.
Proof.
  intros A B a; induction a as [|x a IH]; intros a' [|y b] b' H; simpl in *; try discriminate; [reflexivity|].
  f_equal. apply IH. lia.
Qed.

Lemma effect_include : forall t tau c, effect t tau (add_pairs c) (include_control c).
Proof.
  intros t tau c m m' [H1 H2 H3] E. unfold include_control in E; run_in E. injection E as <-.
  split.
  - constructor; fields; [|exact H2|exact H3]. unfold ctl_count in *; fields.
    rewrite !app_length, map_length. lia.
  - unfold pairs, add_pairs; fields. rewrite combine_app_eq by (symmetry; exact H1). f_equal.
    induction c as [|a c IH]; simpl; [reflexivity | f_equal; exact IH].
Qed.

Lemma effect_include_model : forall t tau other,
    effect t tau (fun l => rewrite_pairs [m_tau other] [EVar tau]
                    (rewrite_pairs [m_t other] [EVar t] (add_pairs (m_u other) l)))
           (include_model other).
Proof.
  intros t tau other.
  assert (Ht : effect t tau (rewrite_pairs [m_t other] [EVar t])
                 (fun m => replace_variable [m_t other] [EVar (m_t m)] m)).
  { intros m m' Hi E. pose proof (ci_t _ _ _ Hi) as Et. rewrite Et in E. eapply effect_replace; eassumption. }
  assert (Htau : effect t tau (rewrite_pairs [m_tau other] [EVar tau])
                 (fun m => replace_variable [m_tau other] [EVar (m_tau m)] m)).
  { intros m m' Hi E. pose proof (ci_tau _ _ _ Hi) as Et. rewrite Et in E. eapply effect_replace; eassumption. }
  unfold include_model.
  apply (effect_cbind t tau (fun l => l) _ _ _ (effect_quiet _ _ _ (quiet_include_state _ _ _))).
  apply (effect_cbind t tau (fun l => l) _ _ _ (effect_quiet _ _ _ (quiet_include_algebraic _ _))).
  apply (effect_cbind t tau (add_pairs (m_u other))
           (fun l => rewrite_pairs [m_tau other] [EVar tau] (rewrite_pairs [m_t other] [EVar t] l))
           _ _ (effect_include t tau (m_u other))).
  apply (effect_cbind t tau (fun l => l) _ _ _ (effect_quiet _ _ _ (quiet_include_parameter _))).
  apply (effect_cbind t tau (fun l => l) _ _ _ (effect_quiet _ _ _ (quiet_include_theta _))).
  apply (effect_cbind t tau (fun l => l) _ _ _ (effect_quiet _ _ _ (quiet_include_equations _ _ _ _))).
  apply (effect_cbind t tau _ _ _ _ Ht Htau).
Qed.

Lemma effect_parametrize : forall t tau u e up,
    effect t tau (rewrite_pairs u e) (parametrize_control u e up).
Proof.
  intros t tau u e up. unfold parametrize_control.
  apply (effect_cbind t tau (fun l => l) _ _ _ (effect_quiet _ _ _ (quiet_cguard _ _))).
  apply (effect_cbind t tau (fun l => l) _ _ _ (effect_quiet _ _ _ (quiet_parametrize_loop _))).
  apply (effect_cbind t tau (fun l => l)); [apply effect_quiet; hush|].
  apply (effect_cbind t tau (fun l => l)); [apply effect_quiet; destruct up; hush|].
  apply effect_replace.
Qed.

Lemma effect_step : forall same t tau o, effect t tau (control_effect t tau o) (model_step same o).
Proof.
  intros same t tau o. destruct o; cbn [model_step control_effect];
    try (apply effect_quiet;
         first [apply quiet_include_state | apply quiet_remove_state | apply quiet_include_equations
               | apply quiet_include_algebraic | apply quiet_remove_algebraic
               | apply quiet_include_parameter | apply quiet_include_theta
               | apply quiet_remove_parameter | apply quiet_remove_theta]).
  - apply effect_replace.
  - apply effect_include.
  - apply effect_remove.
  - apply effect_parametrize.
  - unfold include_models. intros m m'. revert m. induction others as [|other others IH]; intros m Hi E; simpl in E.
    + injection E as <-. split; [exact Hi | reflexivity].
    + destruct (include_model other m) as [m1 [[]|e]] eqn:E1; [|discriminate].
      destruct (effect_include_model t tau other _ _ Hi E1) as [Hi1 Hp1].
      destruct (IH m1 Hi1 E) as [Hi2 Hp2]. split; [exact Hi2|].
      rewrite Hp2, Hp1. reflexivity.
  - unfold connect.
    apply (effect_ext t tau (fun l => drop_pairs u (if replace then rewrite_pairs u y l else l))).
    { destruct replace; reflexivity. }
    apply (effect_cbind t tau (fun l => l) (fun l => drop_pairs u (if replace then rewrite_pairs u y l else l))
             _ _ (effect_quiet _ _ _ (quiet_cguard _ _))).
    apply (effect_cbind t tau (fun l => if replace then rewrite_pairs u y l else l)); [|apply effect_remove].
    destruct replace; [apply effect_replace|].
    apply (effect_cbind t tau (fun l => l) (fun l => l)); apply effect_quiet;
      [apply quiet_include_equations | apply quiet_include_algebraic].
Qed.

Lemma pairing_history : forall same ops t tau m,
    run_all (model_step same) ops (new_model t tau) = (m, Ok tt) ->
    combine (m_u m) (m_u_expr m) = fold_left (fun l o => control_effect t tau o l) ops [].
Proof.
  intros same ops t tau m H.
  assert (G : forall ops m0 m, ctl_inv t tau m0 -> run_all (model_step same) ops m0 = (m, Ok tt) ->
     pairs m = fold_left (fun l o => control_effect t tau o l) ops (pairs m0)).
  { clear. intros ops. induction ops as [|o ops IH]; intros m0 m Hi E; simpl in E.
    - injection E as <-. reflexivity.
    - destruct (model_step same o m0) as [m1 [[]|e]] eqn:E1; [|discriminate].
      destruct (effect_step same t tau o _ _ Hi E1) as [Hi1 Hp1].
      rewrite (IH m1 m Hi1 E), Hp1. reflexivity. }
  apply (G ops (new_model t tau) m); [constructor; reflexivity | exact H].
Qed.

(** A control nobody rewrote still stands for itself. *)
Definition self_expressed (c : sym) (l : list (sym * expr)) : Prop := forall e, In (c, e) l -> e = EVar c.

Lemma self_add : forall c cs l, self_expressed c l -> self_expressed c (add_pairs cs l).
Proof.
  intros c cs l H e Hin. apply in_app_or in Hin. destruct Hin as [Hin|Hin]; [apply H, Hin|].
  apply in_map_iff in Hin. destruct Hin as [s [Hs _]]. injection Hs as <- <-. reflexivity.
Qed.
Lemma self_drop : forall c cs l, self_expressed c l -> self_expressed c (drop_pairs cs l).
Proof. intros c cs l H e Hin. apply filter_In in Hin. apply H, Hin. Qed.
Lemma self_rewrite : forall c v d l, ~ In c v -> self_expressed c l -> self_expressed c (rewrite_pairs v d l).
Proof.
  intros c v d l Hc H e Hin. apply in_map_iff in Hin. destruct Hin as [[c' e'] [He Hin]].
  simpl in He. injection He as -> <-. rewrite (H e' Hin). apply substitute_fresh.
  intros s [<-|[]] Hv. contradiction.
Qed.

Lemma self_effect : forall c t tau o l,
    ~ rewrites_control c o -> self_expressed c l -> self_expressed c (control_effect t tau o l).
Proof.
  intros c t tau o l Hr Hl. destruct o; cbn [control_effect]; simpl in Hr; try exact Hl.
  - apply self_rewrite; assumption.
  - apply self_add; assumption.
  - apply self_drop; assumption.
  - apply self_rewrite; assumption.
  - revert l Hl. induction others as [|other others IH]; intros l Hl; simpl; [exact Hl|].
    apply IH.
    + intros [o [Ho Hc]]. apply Hr. exists o. split; [right; exact Ho | exact Hc].
    + apply self_rewrite; [|apply self_rewrite; [|apply self_add, Hl]];
        intros [E|[]]; apply Hr; exists other; split; try (left; reflexivity); [right | left]; symmetry; exact E.
  - destruct replace; [apply self_drop, self_rewrite; assumption | apply self_drop, Hl].
Qed.

Lemma untouched_control : forall same ops t tau m c e,
    run_all (model_step same) ops (new_model t tau) = (m, Ok tt) ->
    (forall o, In o ops -> ~ rewrites_control c o) ->
    In (c, e) (combine (m_u m) (m_u_expr m)) -> e = EVar c.
Proof.
  intros same ops t tau m c e H Hr Hin. rewrite (pairing_history same ops t tau m H) in Hin.
  assert (G : forall ops l, (forall o, In o ops -> ~ rewrites_control c o) -> self_expressed c l ->
     self_expressed c (fold_left (fun l o => control_effect t tau o l) ops l)).
  { clear. induction ops as [|o ops IH]; intros l Ho Hl; simpl; [exact Hl|].
    apply IH; [intros o' Ho'; apply Ho; right; exact Ho'|].
    apply self_effect; [apply Ho; left; reflexivity | exact Hl]. }
  apply (G ops [] Hr); [intros e' []| exact Hin].
Qed.

Lemma remove_parametrized : forall c m,
    length (m_u_expr m) = length (m_u m) ->
    (exists v, In v c /\ In v (m_u m)) -> (forall v, In v c -> ~ In v (m_u_par m)) ->
    snd (remove_control c m) = Raise ValueError /\
    (forall v, In v c -> ~ In v (m_u (fst (remove_control c m)))).
Proof.
  intros c m H [v [Hv Hu]] Hp.
  destruct (remove_control_eq c m H) as [[Hn E]|[[_ [_ E]]|[_ [[w [Hw Hw']] E]]]]; rewrite E.
  - exfalso. exact (Hn v Hv Hu).
  - split; [reflexivity|]. intros w Hw. cbn [fst]. unfold dropped_u; fields.
    intros Hin. apply filter_In in Hin. destruct Hin as [_ Hin]. apply not_in_true in Hin. contradiction.
  - exfalso. exact (Hp w Hw Hw').
Qed.

(** ** Parametrisation *)

Lemma parametrize_loop_ok : forall u m m',
    parametrize_loop u m = (m', Ok tt) ->
    m' = set_parametrized (m_parametrized m ++ u) m /\ NoDup u /\
    (forall c, In c u -> ~ In c (m_parametrized m)).
Proof.
  induction u as [|a u IH]; intros m m' H; simpl in H; run_in H.
  - injection H as <-. rewrite app_nil_r. split; [destruct m; reflexivity|]. split; [constructor | intros c []].
  - unfold control_is_parametrized in H. destruct (existsb (sym_eqb a) (m_parametrized m)) eqn:E; [discriminate|].
    assert (Ha : ~ In a (m_parametrized m)).
    { intros Hin. rewrite <- (memb_spec _ _ sym_eqb_eq) in Hin. unfold memb in Hin. congruence. }
    apply IH in H. destruct H as [-> [Hnd Hin]]; fields. split; [rewrite <- app_assoc; reflexivity|]. split.
    + constructor; [|exact Hnd]. intros Hu. apply (Hin a Hu). apply in_or_app; right; left; reflexivity.
    + intros c [<-|Hc]; [exact Ha|]. intros Hp. apply (Hin c Hc). apply in_or_app; left; exact Hp.
Qed.

Lemma parametrize_loop_run : forall u m,
    NoDup u -> (forall c, In c u -> ~ In c (m_parametrized m)) ->
    parametrize_loop u m = (set_parametrized (m_parametrized m ++ u) m, Ok tt).
Proof.
  induction u as [|a u IH]; intros m Hnd Hin; simpl; run.
  - rewrite app_nil_r. destruct m; reflexivity.
  - inversion Hnd; subst. unfold control_is_parametrized.
    destruct (existsb (sym_eqb a) (m_parametrized m)) eqn:E.
    { exfalso. apply (Hin a); [left; reflexivity|]. apply (memb_spec _ _ sym_eqb_eq). exact E. }
    rewrite IH; fields; [rewrite <- app_assoc; reflexivity | assumption |].
    intros c Hc Hp. apply in_app_or in Hp. destruct Hp as [Hp|[<-|[]]]; [|contradiction].
    apply (Hin c); [right; exact Hc | exact Hp].
Qed.

Lemma parametrize_loop_frame : forall u m,
    exists l, fst (parametrize_loop u m) = set_parametrized (m_parametrized m ++ l) m /\
              (snd (parametrize_loop u m) = Ok tt \/ snd (parametrize_loop u m) = Raise ValueError) /\
              (forall c, In c u -> In c (m_parametrized m) -> snd (parametrize_loop u m) = Raise ValueError).
Proof.
  induction u as [|a u IH]; intros m; simpl; run.
  - exists []. rewrite app_nil_r. split; [destruct m; reflexivity|]. split; [left; reflexivity | intros c []].
  - unfold control_is_parametrized. destruct (existsb (sym_eqb a) (m_parametrized m)) eqn:E.
    { exists []. rewrite app_nil_r. split; [destruct m; reflexivity|]. split; [right; reflexivity | intros; reflexivity]. }
    destruct (IH (set_parametrized (m_parametrized m ++ [a]) m)) as [l [H1 [H2 H3]]]; fields.
    exists (a :: l). split; [rewrite H1, <- app_assoc; reflexivity|]. split; [exact H2|].
    intros c [<-|Hc] Hp.
    + exfalso. rewrite <- (memb_spec _ _ sym_eqb_eq) in Hp. unfold memb in Hp. congruence.
    + apply (H3 c Hc). apply in_or_app; left; exact Hp.
Qed.

Definition opt_list {A : Type} (o : option (list A)) : list A := match o with Some l => l | None => [] end.

Definition parametrized_model (u : list sym) (e : list expr) (up : option (list sym)) (m : model) : model :=
  replaced u e (set_u_par (filter (not_in u) (m_u_par m) ++ opt_list up)
                          (set_parametrized (m_parametrized m ++ u) m)).

Lemma parametrize_ok_iff : forall u e up m,
    (length u = length e /\ NoDup u /\ (forall c, In c u -> ~ In c (m_parametrized m)) /\
     (exists c, In c u /\ In c (m_u_par m))) <->
    snd (parametrize_control u e up m) = Ok tt.
Proof.
  intros u e up m. unfold parametrize_control; run. split.
  - intros [H1 [H2 [H3 [c [Hc1 Hc2]]]]].
    rewrite (proj2 (Nat.eqb_eq _ _) H1). simpl.
    rewrite (parametrize_loop_run u m H2 H3). fields.
    destruct (remove_syms_cases u (m_u_par m)) as [[Hn _]|[_ E]]; [exfalso; exact (Hn c Hc1 Hc2)|].
    rewrite E. destruct up; rewrite replace_variable_eq, (proj2 (Nat.eqb_eq _ _) H1); reflexivity.
  - intros H. destruct (Nat.eqb_spec (length u) (length e)) as [H1|H1]; [|discriminate].
    simpl in H. destruct (parametrize_loop u m) as [m1 [[]|ex]] eqn:E; [|discriminate].
    apply parametrize_loop_ok in E. destruct E as [-> [H2 H3]]. fields.
    destruct (remove_syms_cases u (m_u_par m)) as [[Hn E]|[Hex E]]; rewrite E in H; [discriminate|].
    repeat split; assumption.
Qed.

Lemma parametrize_result : forall u e up m m',
    parametrize_control u e up m = (m', Ok tt) -> m' = parametrized_model u e up m.
Proof.
  intros u e up m m' H. unfold parametrize_control in H; run_in H.
  destruct (Nat.eqb_spec (length u) (length e)) as [H1|H1]; [|discriminate].
  simpl in H. destruct (parametrize_loop u m) as [m1 [[]|ex]] eqn:E; [|discriminate].
  apply parametrize_loop_ok in E. destruct E as [-> [H2 H3]]. fields.
  destruct (remove_syms_cases u (m_u_par m)) as [[Hn E]|[Hex E]]; rewrite E in H; [discriminate|].
  unfold parametrized_model.
  destruct up; rewrite replace_variable_eq, (proj2 (Nat.eqb_eq _ _) H1) in H; injection H as <-; fields; simpl opt_list;
    [reflexivity | rewrite app_nil_r; reflexivity].
Qed.

Lemma parametrized_evaluates : forall F env u e up m m',
    parametrize_control u e up m = (m', Ok tt) ->
    model_evaluates_as F env (assign env u (map (eval F env) e)) m m'.
Proof.
  intros F env u e up m m' H. apply parametrize_result in H. subst m'.
  exact (replaced_evaluates F env u e
    (set_u_par (filter (not_in u) (m_u_par m) ++ opt_list up) (set_parametrized (m_parametrized m ++ u) m))).
Qed.

Lemma replaced_eliminates : forall o r m s,
    length o = length r -> In s o -> (forall e, In e r -> ~ mentions e s) -> free_of (replaced o r m) s.
Proof.
  intros o r m s Hlen Hs Hr. unfold free_of, replaced, subst_ode, subst_vec, mentions in *; fields.
  split; [|split].
  - intros k e Hin. apply in_map_iff in Hin. destruct Hin as [[k' [e'|]] [He Hin]]; simpl in He; [|discriminate].
    injection He as _ <-. apply substitute_eliminates; assumption.
  - intros e Hin. apply in_map_iff in Hin. destruct Hin as [e' [<- Hin]]. apply substitute_eliminates; assumption.
  - intros e Hin. apply in_map_iff in Hin. destruct Hin as [e' [<- Hin]]. apply substitute_eliminates; assumption.
Qed.

Lemma parametrized_eliminates : forall u e up m m' s,
    parametrize_control u e up m = (m', Ok tt) -> In s u ->
    (forall ex, In ex e -> ~ mentions ex s) -> free_of m' s.
Proof.
  intros u e up m m' s H Hs He.
  assert (Hok : snd (parametrize_control u e up m) = Ok tt) by (rewrite H; reflexivity).
  apply parametrize_ok_iff in Hok. destruct Hok as [Hlen _].
  apply parametrize_result in H. subst m'. apply replaced_eliminates; assumption.
Qed.

Lemma parametrize_again : forall u e up m c,
    In c u -> In c (m_parametrized m) ->
    exists l, parametrize_control u e up m = (set_parametrized (m_parametrized m ++ l) m, Raise ValueError).
Proof.
  intros u e up m c Hc Hp. unfold parametrize_control; run.
  destruct (Nat.eqb_spec (length u) (length e)) as [H1|H1]; simpl.
  2:{ exists []. rewrite app_nil_r. destruct m; reflexivity. }
  destruct (parametrize_loop_frame u m) as [l [H2 [_ H3]]]. specialize (H3 c Hc Hp).
  exists l. destruct (parametrize_loop u m) as [m1 [[]|ex]]; simpl in *; [discriminate|].
  injection H3 as ->. rewrite H2. reflexivity.
Qed.

(** ** Connection *)

Definition connected (u : list sym) (y : list expr) (replace : bool) (m : model) : model :=
  if replace then replaced u y m
  else set_y (m_y m ++ u) (set_alg (m_alg m ++ sub_vec (map EVar u) y) m).

Lemma connect_unfold : forall u y r m,
    connect u y r m =
    if (length u =? length y)%nat then remove_control u (connected u y r m)
    else (m, Raise AssertionError).
Proof.
  intros u y r m. unfold connect, connected; run.
  destruct (length u =? length y)%nat eqn:E; simpl; [|reflexivity].
  destruct r.
  - rewrite replace_variable_eq, E. reflexivity.
  - unfold include_equations, include_equations_alg, include_algebraic; run. simpl. rewrite app_nil_r.
    reflexivity.
Qed.

Lemma connected_count : forall u y r m, ctl_count m -> ctl_count (connected u y r m).
Proof. intros u y [] m H; [apply count_replaced, H | exact H]. Qed.

Definition connect_ok_cond (u : list sym) (y : list expr) (m : model) : Prop :=
  length u = length y /\ (exists c, In c u /\ In c (m_u m)) /\ (exists c, In c u /\ In c (m_u_par m)).

Lemma connect_ok : forall u y r m m',
    length (m_u_expr m) = length (m_u m) ->
    connect u y r m = (m', Ok tt) ->
    connect_ok_cond u y m /\
    m' = set_u_par (filter (not_in u) (m_u_par m)) (dropped_u u (connected u y r m)).
Proof.
  intros u y r m m' Hc H. rewrite connect_unfold in H.
  destruct (Nat.eqb_spec (length u) (length y)) as [Hl|]; [|discriminate].
  assert (Eu : m_u (connected u y r m) = m_u m) by (destruct r; reflexivity).
  assert (Ep : m_u_par (connected u y r m) = m_u_par m) by (destruct r; reflexivity).
  destruct (remove_control_eq u (connected u y r m) (connected_count u y r m Hc))
    as [[_ E]|[[_ [_ E]]|[H1 [H2 E]]]]; rewrite E in H; try discriminate.
  rewrite Eu in H1. rewrite Ep in H2, H. injection H as <-.
  split; [split; [exact Hl | split; assumption] | reflexivity].
Qed.

Lemma connect_succeeds : forall u y r m,
    length (m_u_expr m) = length (m_u m) -> connect_ok_cond u y m ->
    snd (connect u y r m) = Ok tt.
Proof.
  intros u y r m Hc [Hl [[c [H1 H2]] [d [H3 H4]]]]. rewrite connect_unfold, (proj2 (Nat.eqb_eq _ _) Hl).
  assert (Eu : m_u (connected u y r m) = m_u m) by (destruct r; reflexivity).
  assert (Ep : m_u_par (connected u y r m) = m_u_par m) by (destruct r; reflexivity).
  destruct (remove_control_eq u (connected u y r m) (connected_count u y r m Hc))
    as [[Hn E]|[[_ [Hn E]]|[_ [_ E]]]]; rewrite E.
  - exfalso. rewrite Eu in Hn. exact (Hn c H1 H2).
  - exfalso. rewrite Ep in Hn. exact (Hn d H3 H4).
  - reflexivity.
Qed.

Lemma connect_not_control : forall u y r m,
    length (m_u_expr m) = length (m_u m) ->
    length u = length y -> (forall c, In c u -> ~ In c (m_u m)) ->
    connect u y r m = (connected u y r m, Raise ValueError).
Proof.
  intros u y r m Hc Hl Hn. rewrite connect_unfold, (proj2 (Nat.eqb_eq _ _) Hl).
  assert (Eu : m_u (connected u y r m) = m_u m) by (destruct r; reflexivity).
  destruct (remove_control_eq u (connected u y r m) (connected_count u y r m Hc))
    as [[_ E]|[[[c [H1 H2]] _]|[[c [H1 H2]] _]]].
  - exact E.
  - exfalso. rewrite Eu in H2. exact (Hn c H1 H2).
  - exfalso. rewrite Eu in H2. exact (Hn c H1 H2).
Qed.

Lemma sub_vec_zero : forall F env u y,
    length u = length y ->
    (forall e, In e (sub_vec (map EVar u) y) -> (eval F env e == 0)%Q) <->
    Forall2 (fun c e => (env c == eval F env e)%Q) u y.
Proof.
  intros F env u. unfold sub_vec. induction u as [|c u IH]; intros [|e y] Hl; simpl in *; try discriminate.
  - split; [intros; constructor | intros _ e []].
  - split.
    + intros H. constructor.
      * specialize (H _ (or_introl eq_refl)). simpl in H. 
        setoid_replace (env c) with ((env c - eval F env e) + eval F env e)%Q by ring.
        rewrite H. ring.
      * apply IH; [lia|]. intros e' He'. apply H. right; exact He'.
    + intros H e' [<-|He'].
      * inversion H; subst. simpl. rewrite H3. ring.
      * inversion H; subst. revert e' He'. apply IH; [lia | assumption].
Qed.

Lemma connect_solves : forall F env dx u y m m',
    length (m_u_expr m) = length (m_u m) ->
    connect u y false m = (m', Ok tt) ->
    (solves F env dx m' <->
     solves F env dx m /\ Forall2 (fun c e => (env c == eval F env e)%Q) u y).
Proof.
  intros F env dx u y m m' Hc H. apply connect_ok in H; [|exact Hc].
  destruct H as [[Hl _] ->]. unfold solves, dropped_u, connected; fields.
  rewrite <- (sub_vec_zero F env u y Hl). split.
  - intros [H1 H2]. split; [split; [exact H1|]|]; intros e He; apply H2; apply in_or_app; [left | right]; exact He.
  - intros [[H1 H2] H3]. split; [exact H1|]. intros e He. apply in_app_or in He.
    destruct He; [apply H2 | apply H3]; assumption.
Qed.

Lemma solves_replaced : forall F env dx o r m,
    solves F env dx (replaced o r m) <->
    solves F (assign env o (map (eval F env) r)) dx m.
Proof.
  intros F env dx o r m. unfold solves, replaced, subst_ode, subst_vec; fields. split; intros [H1 H2]; split.
  - intros s e Hin. rewrite <- eval_assign. apply (H1 s). apply in_map_iff. exists (s, Some e). split; [reflexivity | exact Hin].
  - intros e Hin. rewrite <- eval_assign. apply H2. apply in_map_iff. exists e. split; [reflexivity | exact Hin].
  - intros s e Hin. apply in_map_iff in Hin. destruct Hin as [[k [e'|]] [He Hin]]; simpl in He; [|discriminate].
    injection He as <- <-. rewrite eval_assign. apply H1, Hin.
  - intros e Hin. apply in_map_iff in Hin. destruct Hin as [e' [<- Hin]]. rewrite eval_assign. apply H2, Hin.
Qed.

Lemma connect_replace_solves : forall F env dx u y m m',
    length (m_u_expr m) = length (m_u m) ->
    connect u y true m = (m', Ok tt) ->
    (solves F env dx m' <-> solves F (assign env u (map (eval F env) y)) dx m).
Proof.
  intros F env dx u y m m' Hc H. apply connect_ok in H; [|exact Hc].
  destruct H as [_ ->]. rewrite <- solves_replaced. reflexivity.
Qed.

Lemma sub_vec_length : forall u y, length u = length y -> length (sub_vec (map EVar u) y) = length u.
Proof. intros u y H. unfold sub_vec. rewrite map_length, combine_length, map_length. lia. Qed.

Lemma connect_shape : forall u y r m m',
    length (m_u_expr m) = length (m_u m) ->
    connect u y r m = (m', Ok tt) ->
    m_x m' = m_x m /\ m_x_0 m' = m_x_0 m /\ m_p m' = m_p m /\ m_theta m' = m_theta m /\
    (m_y m' = if r then m_y m else m_y m ++ u) /\
    m_u m' = filter (not_in u) (m_u m) /\ m_u_par m' = filter (not_in u) (m_u_par m) /\
    (length (m_alg m') + length (m_y m) = length (m_alg m) + length (m_y m'))%nat /\
    length (m_alg m') = (length (m_alg m) + if r then 0 else length u)%nat /\
    map fst (m_ode m') = map fst (m_ode m).
Proof.
  intros u y r m m' Hc H. apply connect_ok in H; [|exact Hc]. destruct H as [[Hl _] ->].
  destruct r; unfold dropped_u, connected, replaced; fields.
  - unfold subst_vec. rewrite map_length. repeat split; try lia. apply subst_ode_keys.
  - rewrite !app_length, sub_vec_length by exact Hl. repeat split; lia.
Qed.

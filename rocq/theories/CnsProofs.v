(** Proofs about the constraints and costs of optimal control problems. *)
From Coq Require Import String.
From Verif Require Import Base BaseProofs UtilModel ExprModel ExprProofs NlpModel SysModel SysSpec
  SysProofs SimModel OcpModel OcpSpec OcpProofs CnsSpec.
Local Open Scope list_scope.
Local Open Scope cmd_scope.

Definition parts (o : ocp) :=
  (o_h_initial o, o_h_final o, o_h o, (o_g_ineq o, o_when_ineq o), (o_g_eq o, o_when_eq o), (o_L o, o_V o, o_S o)).
Definition keeps {A : Type} (c : cmd ocp A) : Prop := forall o, parts (fst (c o)) = parts o.

Lemma keeps_bind : forall (A B : Type) (c : cmd ocp A) (f : A -> cmd ocp B),
    keeps c -> (forall a, keeps (f a)) -> keeps (cbind c f).
Proof.
  intros A B c f Hc Hf o. unfold cbind. specialize (Hc o). destruct (c o) as [o1 [a|e]]; [|exact Hc].
  rewrite Hf. exact Hc.
Qed.
Lemma keeps_modify : forall f, (forall o, parts (f o) = parts o) -> keeps (cmodify f).
Proof. intros f H o. exact (H o). Qed.
Lemma keeps_set : forall (A : Type) (g : ocp -> res A) (s : A -> ocp -> ocp),
    (forall a o, parts (s a o) = parts o) -> keeps (cset g s).
Proof. intros A g s H o. unfold cset. destruct (g o); [apply H | reflexivity]. Qed.
Lemma keeps_guard : forall b e, keeps (cguard b e).
Proof. intros b e o. unfold cguard. destruct (b o); reflexivity. Qed.
Lemma keeps_ret : forall (A : Type) (a : A), keeps (cret a).
Proof. intros A a o. reflexivity. Qed.
Lemma keeps_model : forall (A : Type) (c : cmd model A), keeps (on_model c).
Proof. intros A c o. unfold on_model. destruct (c (o_model o)) as [m r]. reflexivity. Qed.
Lemma keeps_fun : forall (A : Type) (f : ocp -> cmd ocp A), (forall o, keeps (f o)) -> keeps (fun o => f o o).
Proof. intros A f H o. apply H. Qed.

Ltac keep_one :=
  first [ apply keeps_guard | apply keeps_ret | apply keeps_model
        | apply keeps_set; intros; reflexivity
        | apply keeps_modify; intros; reflexivity ].
Ltac keep_all := repeat first [ keep_one | apply keeps_bind; [|intros _] ].

Definition untouched (op : ocp_op) : bool :=
  match op with
  | PIncludeState _ _ _ _ _ _ _ _ | PCreateCostState _ _ | PInitialEquality _ | PFinalEquality _ | PEquality _
  | PTimeInequality _ _ | PTimeEquality _ _ | PReplaceVariable _ _ | PParametrizeControl _ _ _ | PMerge _ => false
  | _ => true
  end.

Lemma step_keeps : forall same op, untouched op = true -> keeps (ocp_step same op).
Proof.
  intros same op H. destruct op; try discriminate; cbn [ocp_step].
  - unfold ocp_include_algebraic. keep_all. apply keeps_modify. intros o. destruct (o_y_guess o); reflexivity.
  - unfold ocp_include_control. keep_all. apply keeps_modify. intros o. destruct u_guess; [|reflexivity].
    destruct (_ =? 0)%nat; [reflexivity|]. destruct (o_u_guess o); reflexivity.
  - unfold ocp_remove_algebraic. apply (keeps_fun _ (fun o => _)). intros o. keep_all. destruct (o_y_guess o); keep_all.
  - unfold ocp_remove_control. apply (keeps_fun _ (fun o => _)). intros o. keep_all. destruct (o_u_guess o); keep_all.
  - keep_all.
  - keep_all.
  - keep_all.
  - unfold set_p_opt. keep_all.
  - unfold set_th_opt. keep_all.
  - unfold include_p_opt, set_p_opt. keep_all.
  - unfold include_th_opt, set_th_opt. keep_all.
  - unfold ocp_connect. apply keeps_bind; [keep_one|]. intros _. apply (keeps_fun _ (fun o => _)). intros o. keep_all.
    + destruct replace; [keep_one|]. keep_all. destruct (o_u_guess o), (o_y_guess o); keep_all.
    + destruct (o_u_guess o); keep_all.
Qed.

(** ** The calls that contribute *)

Lemma parts_ledger : forall o o', parts o' = parts o -> ledger_of o' = ledger_of o /\ (tidy o -> tidy o').
Proof.
  intros o o' H. unfold parts in H. injection H as H1 H2 H3 H4 H5 H6 H7 H8 H9 H10.
  unfold ledger_of, tidy. rewrite H1, H2, H3, H4, H5, H6, H7, H8, H9, H10. split; [reflexivity | intros X; exact X].
Qed.

Lemma zip_same : forall op a b, length a = length b -> zip_vec op a b = Ok (map (fun ab => EBin op (fst ab) (snd ab)) (combine a b)).
Proof. intros op a b H. unfold zip_vec. rewrite H, Nat.eqb_refl. reflexivity. Qed.

Lemma map_pairs : forall (A B C : Type) (f : A -> B -> C) (a : list A) (b : list B) (g : sym -> A) (h : sym -> B) (u v : list sym),
    a = map g u -> b = map h v -> map (fun ab => f (fst ab) (snd ab)) (combine a b) = map (fun c => f (g (fst c)) (h (snd c))) (combine u v).
Proof.
  intros A B C f a b g h u v -> ->. revert v. induction u as [|x u IH]; intros [|y v]; cbn; try reflexivity. rewrite IH. reflexivity.
Qed.

Lemma state_ledger : forall var ode x_0 lo hi h s b o o',
    match x_0 with Some _ => length s = length var | None => True end ->
    ocp_include_state var ode x_0 lo hi h s b o = (o', Ok tt) ->
    ledger_of o' = ledger_effect (PIncludeState var ode x_0 lo hi h s b) (ledger_of o) /\ (tidy o -> tidy o').
Proof.
  intros var ode x_0 lo hi h s b o o' L H. unfold ocp_include_state in H. grd H.
  destruct (state_bound lo _) as [lo'|]; [|discriminate]. destruct (state_bound hi _) as [hi'|]; [|discriminate].
  grd H. grd H. grd H.
  apply cbind_ok in H. destruct H as [a1 [[] [E1 H]]]. apply on_model_ok in E1. destruct E1 as [m' [_ E1]].
  apply cbind_ok in H. destruct H as [a2 [[] [E2 H]]]. apply cmodify_ok in E2.
  apply cbind_ok in H. destruct H as [a3 [[] [E3 H]]].
  apply cbind_ok in H. destruct H as [a4 [[] [E4 H]]]. apply cset_ok in E4. destruct E4 as [w1 [_ E4]].
  apply cset_ok in H. destruct H as [w [_ E5]].
  assert (P : parts a2 = parts o) by (rewrite E2, E1; reflexivity).
  assert (R : parts o' = parts a3) by (rewrite E5, E4; reflexivity).
  destruct (parts_ledger _ _ R) as [EQ TQ]. destruct (parts_ledger _ _ P) as [EP TP]. rewrite EQ. clear EQ.
  destruct x_0 as [v|].
  - apply cset_ok in E3. destruct E3 as [hh [Z E3]].
    rewrite zip_same in Z by (rewrite !map_length; exact L). injection Z as Z; subst hh.
    rewrite (map_pairs _ _ _ (EBin OSub) _ _ EVar EVar s var eq_refl eq_refl) in E3.
    cbn [ledger_effect]. rewrite <- EP. subst a3. split; [reflexivity|].
    intros T. apply TQ. apply TP in T. exact T.
  - destruct h as [h|].
    + apply cmodify_ok in E3. cbn [ledger_effect]. rewrite <- EP. subst a3. split; [reflexivity|].
      intros T. apply TQ. apply TP in T. exact T.
    + injection E3 as <-. cbn [ledger_effect]. rewrite EP. split; [reflexivity|]. intros T. apply TQ, TP, T.
Qed.

Lemma combine_repeat : forall (es : list expr) (w : string), combine es (repeat w (length es)) = at_time w es.
Proof. intros es w. induction es as [|e es IH]; [reflexivity|]. cbn. unfold at_time in IH. rewrite IH. reflexivity. Qed.
Lemma combine_app' : forall (A B : Type) (a a' : list A) (b b' : list B), length b = length a ->
    combine (a ++ a') (b ++ b') = combine a b ++ combine a' b'.
Proof.
  intros A B a. induction a as [|x a IH]; intros a' [|y b] b' H; try discriminate; [reflexivity|]. cbn. rewrite IH by (cbn in H; lia). reflexivity.
Qed.
Lemma combine_map_l : forall (A B C : Type) (f : A -> C) (a : list A) (b : list B),
    combine (map f a) b = map (fun c => (f (fst c), snd c)) (combine a b).
Proof. intros A B C f a. induction a as [|x a IH]; intros [|y b]; cbn; try reflexivity. rewrite IH. reflexivity. Qed.

Lemma replace_ledger : forall v e o o', ocp_replace_variable v e o = (o', Ok tt) ->
    ledger_of o' = rewritten v e (ledger_of o) /\ (tidy o -> tidy o').
Proof.
  intros v e o o' H. unfold ocp_replace_variable in H. grd H. do 8 modk H. apply on_model_ok in H. destruct H as [m' [_ E']].
  unfold ledger_of, tidy, rewritten. cbn [l_initial l_final l_free l_ineq l_eq l_costs]. back. unfold subst_vec.
  rewrite !map_app, !combine_map_l, !map_length. split; [reflexivity | intros T; exact T].
Qed.

Lemma scalar : forall (A : Type) (l : list A), length l = 1%nat -> exists x, l = [x].
Proof. intros A [|x [|y l]] H; try discriminate. exists x. reflexivity. Qed.

Lemma merge_ledger : forall q o o', tidy q -> tidy o -> merge_problem q o = (o', Ok tt) ->
    ledger_of o' = joined (ledger_of o) (ledger_of q) /\ tidy o'.
Proof.
  intros q o o' [Q1 [Q2 [Q3 [Q4 Q5]]]] [T1 [T2 [T3 [T4 T5]]]] H.
  apply merge_problem_appended in H.
  destruct H as [_ [_ [_ [_ [_ [A1 [A2 [A3 [A4 [A5 [A6 [A7 [L [V [S _]]]]]]]]]]]]]]].
  apply scalar in Q3. destruct Q3 as [l Ql]. apply scalar in Q4. destruct Q4 as [v Qv]. apply scalar in Q5. destruct Q5 as [s Qs].
  apply scalar in T3. destruct T3 as [l0 Tl]. apply scalar in T4. destruct T4 as [v0 Tv]. apply scalar in T5. destruct T5 as [s0 Ts].
  rewrite Ql, Tl in L. rewrite Qv, Tv in V. rewrite Qs, Ts in S. cbn in L, V, S.
  assert (L' : o_L o' = [EBin OAdd l0 l]) by congruence. assert (V' : o_V o' = [EBin OAdd v0 v]) by congruence.
  assert (S' : o_S o' = [EBin OAdd s0 s]) by congruence.
  unfold ledger_of, joined, tidy. cbn [l_initial l_final l_free l_ineq l_eq l_costs].
  rewrite A1, A2, A3, A4, A5, A6, A7, L', V', S', Ql, Qv, Qs, Tl, Tv, Ts.
  rewrite !combine_app' by assumption. rewrite !app_length. split; [reflexivity|]. repeat split; try reflexivity; lia.
Qed.

Lemma merge_all_ledger : forall ps o o', Forall tidy ps -> tidy o -> ocp_merge ps o = (o', Ok tt) ->
    ledger_of o' = fold_left (fun l q => joined l (ledger_of q)) ps (ledger_of o) /\ tidy o'.
Proof.
  intros ps. induction ps as [|q ps IH]; intros o o' Hp T H; unfold ocp_merge in *; simpl in *.
  - injection H as <-. split; [reflexivity | exact T].
  - destruct (merge_problem q o) as [o1 [[]|]] eqn:E; [|discriminate]. inversion Hp as [|? ? Tq Tps]; subst.
    destruct (merge_ledger q o o1 Tq T E) as [E1 T1]. rewrite <- E1. exact (IH o1 o' Tps T1 H).
Qed.

Theorem step_ledger : forall same op o o', tidy o -> orderly op -> ocp_step same op o = (o', Ok tt) ->
    tidy o' /\ ledger_of o' = ledger_effect op (ledger_of o).
Proof.
  intros same op o o' T G H.
  destruct (untouched op) eqn:U.
  - pose proof (step_keeps same op U o) as K. rewrite H in K. cbn [fst] in K.
    destruct (parts_ledger _ _ K) as [E F]. split; [exact (F T)|]. rewrite E. destruct op; try discriminate; reflexivity.
  - destruct op; try discriminate; cbn [ocp_step] in H.
    + assert (G' : match x_0 with Some _ => length x_0_sym = length var | None => True end) by (destruct x_0; [exact G | exact I]).
      destruct (state_ledger _ _ _ _ _ _ _ _ o o' G' H) as [E F]. auto.
    + apply cmodify_ok in H. subst o'. split; [exact T | reflexivity].
    + apply cmodify_ok in H. subst o'. split; [exact T | reflexivity].
    + apply cmodify_ok in H. subst o'. split; [exact T | reflexivity].
    + unfold include_time_inequality in H. modk H. apply cmodify_ok in H. destruct T as [T1 [T2 T3]].
      unfold tidy, ledger_of. cbn [ledger_effect l_initial l_final l_free l_ineq l_eq l_costs]. back.
      rewrite combine_app', combine_repeat, !app_length, repeat_length by assumption.
      split; [|reflexivity]. split; [lia|]. split; [lia | exact T3].
    + unfold include_time_equality in H. modk H. apply cmodify_ok in H. destruct T as [T1 [T2 T3]].
      unfold tidy, ledger_of. cbn [ledger_effect l_initial l_final l_free l_ineq l_eq l_costs]. back.
      rewrite combine_app', combine_repeat, !app_length, repeat_length by assumption.
      split; [|reflexivity]. split; [lia|]. split; [lia | exact T3].
    + destruct (replace_ledger _ _ _ _ H). auto.
    + unfold ocp_parametrize_control in H. apply cbind_ok in H. destruct H as [o1 [[] [E1 H]]].
      apply on_model_ok in E1. destruct E1 as [m' [_ E1]]. destruct (replace_ledger _ _ _ _ H) as [E F].
      split; [apply F; subst o1; exact T|]. rewrite E. subst o1. reflexivity.
    + unfold create_cost_state in H. apply cbind_ok in H. destruct H as [o1 [[] [E1 H]]]. apply cmodify_ok in H.
      destruct (state_ledger [x_c] _ (Some [0%Q]) _ _ _ [x_c0] _ o o1 eq_refl E1) as [E F]. subst o'.
      split; [exact (F T)|]. exact E.
    + destruct (merge_all_ledger _ _ _ G T H). auto.
Qed.

Theorem history_ledger : forall same ops o o', tidy o -> Forall orderly ops -> run_all (ocp_step same) ops o = (o', Ok tt) ->
    tidy o' /\ ledger_of o' = fold_left (fun l op => ledger_effect op l) ops (ledger_of o).
Proof.
  intros same ops. induction ops as [|op ops IH]; intros o o' T G H; cbn [run_all fold_left] in *.
  - injection H as <-. split; [exact T | reflexivity].
  - destruct (ocp_step same op o) as [o1 [[]|]] eqn:E; [|discriminate]. inversion G as [|? ? G1 G2]; subst.
    destruct (step_ledger same op o o1 T G1 E) as [T1 L1]. rewrite <- L1. exact (IH o1 o' T1 G2 H).
Qed.

Theorem new_ledger : forall m x_0 t_0 t_f o, length (m_x_0 m) = length (m_x m) -> new_ocp m x_0 t_0 t_f = Ok o ->
    tidy o /\ ledger_of o = starting (m_x m) (m_x_0 m).
Proof.
  intros m x_0 t_0 t_f o L H. unfold new_ocp in H. rewrite zip_same in H by (rewrite !map_length; auto).
  rewrite (map_pairs _ _ _ (EBin OSub) _ _ EVar EVar (m_x m) (m_x_0 m) eq_refl eq_refl) in H.
  match type of H with Ok ?x = _ => assert (E : o = x) by congruence end. rewrite E.
  split; [repeat split; reflexivity | reflexivity].
Qed.

(** ** Nothing imposed is lost *)

Lemma within_refl : forall l, within l l.
Proof. intros l. unfold within. repeat split; intros; assumption. Qed.
Lemma within_trans : forall a b c, within a b -> within b c -> within a c.
Proof.
  intros a b c [A1 [A2 [A3 [A4 A5]]]] [B1 [B2 [B3 [B4 B5]]]]. unfold within.
  repeat split; intros e H; auto.
Qed.
Lemma joined_within : forall a b, within a (joined a b).
Proof. intros a b. unfold within, joined. cbn. repeat split; intros; apply in_or_app; left; assumption. Qed.
Lemma effect_within : forall op l, rewrites op = false -> within l (ledger_effect op l).
Proof.
  intros op l H.
  assert (J : forall es, within l (add_initial es l)).
  { intros es. unfold within. cbn. repeat split; intros; try assumption. apply in_or_app. left. assumption. }
  destruct op; try discriminate; cbn [ledger_effect]; try apply within_refl; try apply J.
  - destruct x_0; [apply J|]. destruct h_initial; [apply J | apply within_refl].
  - unfold within. cbn. repeat split; intros; try assumption. apply in_or_app. left. assumption.
  - unfold within. cbn. repeat split; intros; try assumption. apply in_or_app. left. assumption.
  - unfold within. cbn. repeat split; intros; try assumption. apply in_or_app. left. assumption.
  - unfold within. cbn. repeat split; intros; try assumption. apply in_or_app. left. assumption.
  - revert l H J. induction problems as [|q qs IH]; intros l H J; cbn [fold_left]; [apply within_refl|].
    apply (within_trans _ (joined l (ledger_of q))); [apply joined_within | apply IH; [reflexivity|]].
    intros es. unfold within. cbn. repeat split; intros; try assumption. apply in_or_app. left. assumption.
Qed.
Theorem history_within : forall same ops o o', tidy o -> Forall orderly ops ->
    Forall (fun op => rewrites op = false) ops -> run_all (ocp_step same) ops o = (o', Ok tt) ->
    within (ledger_of o) (ledger_of o').
Proof.
  intros same ops o o' T G R H. destruct (history_ledger same ops o o' T G H) as [_ ->]. clear H T G.
  generalize (ledger_of o). induction R as [|op ops R1 _ IH]; intros l; cbn [fold_left]; [apply within_refl|].
  apply (within_trans _ (ledger_effect op l)); [apply effect_within, R1 | apply IH].
Qed.
Lemma effect_costs : forall op l, rewrites op = false -> merges op = false -> l_costs (ledger_effect op l) = l_costs l.
Proof.
  intros op l H M. destruct op; try discriminate; try reflexivity. cbn. destruct x_0; [reflexivity|]. destruct h_initial; reflexivity.
Qed.
Theorem history_costs : forall same ops o o', tidy o -> Forall orderly ops ->
    Forall (fun op => rewrites op = false /\ merges op = false) ops -> run_all (ocp_step same) ops o = (o', Ok tt) ->
    (o_L o', o_V o', o_S o') = (o_L o, o_V o, o_S o).
Proof.
  intros same ops o o' T G R H. destruct (history_ledger same ops o o' T G H) as [T' E]. clear H G.
  assert (C : l_costs (ledger_of o') = l_costs (ledger_of o)).
  { rewrite E. clear E T. generalize (ledger_of o). induction R as [|op ops [R1 R2] _ IH]; intros l; cbn [fold_left]; [reflexivity|].
    rewrite IH. apply effect_costs; assumption. }
  destruct T as [_ [_ [T1 [T2 T3]]]]. destruct T' as [_ [_ [S1 [S2 S3]]]].
  apply scalar in T1, T2, T3, S1, S2, S3. destruct T1 as [a A], T2 as [b B], T3 as [c D], S1 as [a' A'], S2 as [b' B'], S3 as [c' D'].
  cbn in C. rewrite A, B, D, A', B', D' in C |- *. cbn in C. injection C as -> -> ->. reflexivity.
Qed.

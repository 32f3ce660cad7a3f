(** More lemmas about optimal control problems: simulation, optimised parameters and
    replacements. *)
From Coq Require Import String Lqa.
From Verif Require Import Base BaseProofs UtilModel UtilProofs ExprModel ExprProofs NlpModel SysModel SysSpec
  SysProofs SysCtlProofs SimModel SimProofs OcpModel OcpSpec OcpProofs.
Local Open Scope list_scope.
Local Open Scope cmd_scope.

(** ** Simulation *)

Lemma grid_times : forall integrate defaults F o x_0 t_f q t_0 n u p theta y_0 ty user s,
    (t_f = TNum q \/ (t_f = TNone /\ q = o_t_f o)) ->
    ocp_simulate integrate defaults F o x_0 t_f t_0 (Some n) u p theta y_0 ty user = Ok s ->
    let start := match t_0 with Some t => t | None => o_t_0 o end in
    let delta_t := ((q - start) / inject_Z (Z.of_nat n))%Q in
    (1 < n)%nat /\
    map fst (s_x s) = o_t_0 o :: map (fun k => (delta_t * inject_Z (Z.of_nat k))%Q) (seq 1 (n - 1)) /\
    map fst (s_y s) = map (fun k => (delta_t * inject_Z (Z.of_nat k))%Q) (seq 1 (n - 1)) /\
    map fst (s_u s) = map (fun k => (delta_t * inject_Z (Z.of_nat k))%Q) (seq 1 (n - 1)) /\
    nth_error (s_x s) 0 = Some (o_t_0 o, match x_0 with Some v => v | None => o_x_0 o end).
Proof.
  intros integrate defaults F o x_0 t_f q t_0 n u p theta y_0 ty user s Ht H start delta_t.
  unfold ocp_simulate in H. destruct (pre_solve_check o); [|discriminate].
  destruct (ocp_end_times o t_f t_0 (Some n)) as [times|] eqn:E; [|discriminate].
  assert (Et : times = map (fun k => (delta_t * inject_Z (Z.of_nat k))%Q) (seq 1 (n - 1))).
  { unfold ocp_end_times in E. fold start in E. destruct Ht as [->|[-> ->]]; destruct n; try discriminate; injection E as <-; reflexivity. }
  apply w_C22_times in H. destruct H as [H1 H2]. rewrite <- Et. split; [|exact H2].
  destruct n as [|[|n]]; [| |lia]; exfalso; apply H1; rewrite Et; reflexivity.
Qed.

Lemma given_times : forall integrate defaults F o x_0 t_f t_0 u p theta y_0 ty user s,
    ocp_simulate integrate defaults F o x_0 t_f t_0 None u p theta y_0 ty user = Ok s ->
    map fst (s_x s) = o_t_0 o :: match t_f with TNone => [o_t_f o] | TNum q => [q] | TList l => l end.
Proof.
  intros integrate defaults F o x_0 t_f t_0 u p theta y_0 ty user s H.
  unfold ocp_simulate in H. destruct (pre_solve_check o); [|discriminate].
  unfold ocp_end_times in H. destruct t_f; apply w_C22_times in H; apply H.
Qed.

Lemma final_time_missing : forall integrate defaults F o x_0 q n u p theta y_0 ty user s,
    (o_t_0 o == 0)%Q -> (0 < q)%Q ->
    ocp_simulate integrate defaults F o x_0 (TNum q) None (Some n) u p theta y_0 ty user = Ok s ->
    forall t, In t (map fst (s_x s)) -> (t < q)%Q.
Proof.
  intros integrate defaults F o x_0 q n u p theta y_0 ty user s H0 Hq H t Ht.
  apply grid_times with (q := q) in H; [|left; reflexivity]. cbv zeta in H. destruct H as [Hn [H _]].
  rewrite H in Ht. destruct Ht as [<-|Ht]; [rewrite H0; exact Hq|].
  apply in_map_iff in Ht. destruct Ht as [k [<- Hk]]. apply in_seq in Hk. rewrite H0.
  assert (Kn : (inject_Z (Z.of_nat k) < inject_Z (Z.of_nat n))%Q) by (rewrite <- Zlt_Qlt; lia).
  assert (Np : (0 < inject_Z (Z.of_nat n))%Q) by (change 0%Q with (inject_Z 0); rewrite <- Zlt_Qlt; lia).
  assert (E : ((q - 0) / inject_Z (Z.of_nat n) * inject_Z (Z.of_nat k) == q * inject_Z (Z.of_nat k) / inject_Z (Z.of_nat n))%Q).
  { field. lra. }
  rewrite E. apply Qlt_shift_div_r; [exact Np|]. rewrite (Qmult_comm q), (Qmult_comm q). apply Qmult_lt_r; assumption.
Qed.

Lemma one_element_fails : forall integrate defaults F o x_0 t_f q t_0 u p theta y_0 ty user,
    (t_f = TNum q \/ t_f = TNone) ->
    exists e, ocp_simulate integrate defaults F o x_0 t_f t_0 (Some 1) u p theta y_0 ty user = Raise e.
Proof.
  intros integrate defaults F o x_0 t_f q t_0 u p theta y_0 ty user Ht.
  destruct (ocp_simulate integrate defaults F o x_0 t_f t_0 (Some 1) u p theta y_0 ty user) as [s|e] eqn:E; [|eexists; reflexivity].
  exfalso. destruct Ht as [Ht|Ht].
  - apply grid_times with (q := q) in E; [|left; exact Ht]. cbv zeta in E. lia.
  - apply grid_times with (q := o_t_f o) in E; [|right; auto]. cbv zeta in E. lia.
Qed.

(** ** Rates *)

Lemma has_delta_u_spec : forall o, aligned o -> exists b, has_delta_u o = Ok b /\ (b = true <-> rate_bounded o).
Proof.
  intros o A. unfold aligned in A. destruct A as [_ [_ [[_ [_ [D1 D2]]] _]]].
  unfold has_delta_u. rewrite D1, D2, Nat.ltb_irrefl. cbn [orb]. eexists. split; [reflexivity|].
  rewrite existsb_exists. unfold rate_bounded. split.
  - intros [i [Hi H]]. apply in_seq in Hi. exists i.
    destruct (nth_error (m_u (o_model o)) i) as [c|] eqn:E; [|apply nth_error_None in E; lia].
    destruct (nth_error (o_du_max o) i) as [hi|] eqn:E1; [|apply nth_error_None in E1; lia].
    destruct (nth_error (o_du_min o) i) as [lo|] eqn:E2; [|apply nth_error_None in E2; lia].
    exists c, lo, hi. repeat split. destruct hi, lo; try discriminate; (left; congruence) || (right; congruence).
  - intros [i [c [lo [hi [E [E2 [E1 H]]]]]]]. exists i.
    assert (i < length (m_u (o_model o)))%nat by (apply nth_error_Some; congruence).
    split; [apply in_seq; lia|]. rewrite E1, E2. destruct hi, lo; try reflexivity. destruct H; congruence.
Qed.

(** ** Optimised parameters *)

Lemma opt_indices : forall o,
    incl (o_p_opt o) (m_p (o_model o)) -> NoDup (m_p (o_model o)) ->
    map (nth_error (m_p (o_model o))) (get_p_opt_indices o) = map Some (o_p_opt o).
Proof. intros o H N. apply find_indices_members; try assumption. intros a b; apply Nat.eqb_eq. Qed.
Lemma opt_theta_indices : forall o,
    incl (o_theta_opt o) (m_theta (o_model o)) -> NoDup (m_theta (o_model o)) ->
    map (nth_error (m_theta (o_model o))) (get_theta_opt_indices o) = map Some (o_theta_opt o).
Proof. intros o H N. apply find_indices_members; try assumption. intros a b; apply Nat.eqb_eq. Qed.

(** A projection that a command leaves alone. *)
Definition keeps {S T A : Type} (f : S -> T) (c : cmd S A) : Prop := forall s, f (fst (c s)) = f s.
Lemma keeps_bind : forall S T A B (f : S -> T) (c : cmd S A) (k : A -> cmd S B),
    keeps f c -> (forall a, keeps f (k a)) -> keeps f (cbind c k).
Proof.
  intros S T A B f c k Hc Hk s. unfold cbind. pose proof (Hc s) as H. destruct (c s) as [s1 [a|e]]; [|exact H].
  rewrite (Hk a s1). exact H.
Qed.
Lemma keeps_guard : forall S T (f : S -> T) bad e, keeps f (cguard bad e).
Proof. intros S T f bad e s. unfold cguard. destruct (bad s); reflexivity. Qed.
Lemma keeps_ret : forall S T A (f : S -> T) (a : A), keeps f (cret a).
Proof. intros S T A f a s. reflexivity. Qed.
Lemma keeps_modify : forall S T (f : S -> T) g, (forall s, f (g s) = f s) -> keeps f (cmodify g).
Proof. intros S T f g H s. apply H. Qed.
Lemma keeps_set : forall S T A (f : S -> T) (r : S -> res A) put,
    (forall a s, f (put a s) = f s) -> keeps f (cset r put).
Proof. intros S T A f r put H s. unfold cset. destruct (r s); [apply H|reflexivity]. Qed.
Lemma keeps_fun : forall S T A (f : S -> T) (c : S -> cmd S A), (forall s, keeps f (c s)) -> keeps f (fun s => c s s).
Proof. intros S T A f c H s. apply H. Qed.

Definition mpars (m : model) := (m_p m, m_theta m).
Definition opars (o : ocp) := (o_p_opt o, o_theta_opt o, mpars (o_model o)).
Lemma keeps_model : forall A (c : cmd model A), keeps mpars c -> keeps opars (on_model c).
Proof.
  intros A c H o. unfold on_model. pose proof (H (o_model o)) as E. destruct (c (o_model o)) as [m r]. unfold opars; ofields.
  cbn [fst o_p_opt o_theta_opt o_model]. f_equal. exact E.
Qed.

Ltac kp := repeat match goal with
  | |- keeps _ (cbind _ _) => apply keeps_bind; [|intros ?]
  | |- keeps _ (cguard _ _) => apply keeps_guard
  | |- keeps _ (cret _) => apply keeps_ret
  | |- keeps _ (cset _ _) => apply keeps_set; intros; reflexivity
  | |- keeps _ (cmodify _) => apply keeps_modify; intros; reflexivity
  | |- keeps _ (on_model _) => apply keeps_model
  end.

Lemma mk_kwargs : forall x f, keeps mpars (include_equation_from_kwargs x f).
Proof. intros. unfold include_equation_from_kwargs. kp. Qed.
Lemma mk_equations : forall args f x alg, keeps mpars (include_equations args f x alg).
Proof.
  intros. unfold include_equations, include_equations_alg. kp.
  - destruct args; [kp|]. unfold include_equation_from_diff_equations. apply mk_kwargs.
  - destruct f; [|kp]. destruct x; [apply mk_kwargs|].
    intros m. destruct (guess_states (length l) m); [apply mk_kwargs|reflexivity].
Qed.
Lemma mk_state_loop : forall var, keeps mpars (include_state_loop var).
Proof. induction var; simpl; kp; assumption. Qed.
Lemma mk_state : forall var f x_0, keeps mpars (include_state var f x_0).
Proof. intros. unfold include_state. kp; [apply mk_state_loop|]. destruct f; [apply mk_equations|kp]. Qed.
Lemma mk_algebraic : forall var a, keeps mpars (include_algebraic var a).
Proof. intros. unfold include_algebraic. kp. destruct a; [apply mk_equations|kp]. Qed.
Lemma mk_control : forall var, keeps mpars (include_control var).
Proof. intros. unfold include_control. kp. Qed.
Lemma mk_remove_control : forall var, keeps mpars (remove_control var).
Proof. intros. unfold remove_control. kp. Qed.
Lemma mk_remove_algebraic : forall same var eq, keeps mpars (remove_algebraic same var eq).
Proof. intros. unfold remove_algebraic. kp. destruct eq; kp. Qed.
Lemma mk_replace : forall a b, keeps mpars (replace_variable a b).
Proof. intros. unfold replace_variable. kp. destruct (0 <? length a)%nat; kp. Qed.
Lemma mk_parametrize_loop : forall u, keeps mpars (parametrize_loop u).
Proof. induction u; simpl; kp; assumption. Qed.
Lemma mk_parametrize : forall u e v, keeps mpars (parametrize_control u e v).
Proof. intros. unfold parametrize_control. kp; [apply mk_parametrize_loop|destruct v; kp|apply mk_replace]. Qed.
Lemma mk_connect : forall u y r, keeps mpars (connect u y r).
Proof.
  intros. unfold connect. kp; [|apply mk_remove_control].
  destruct r; [apply mk_replace|kp; [apply mk_equations|apply mk_algebraic]].
Qed.

Lemma ok_state : forall var ode x_0 lo hi h s b, keeps opars (ocp_include_state var ode x_0 lo hi h s b).
Proof.
  intros. unfold ocp_include_state. kp.
  match goal with |- keeps _ (fun o => match ?a with _ => _ end) => destruct a; [|intros ?; reflexivity] end.
  match goal with |- keeps _ (fun o => match ?a with _ => _ end) => destruct a; [|intros ?; reflexivity] end.
  match goal with |- keeps _ (fun o => ?c o) => change (keeps opars c) end.
  kp; [apply mk_state|]. destruct x_0, h; kp.
Qed.
Lemma ok_replace : forall a b, keeps opars (ocp_replace_variable a b).
Proof. intros. unfold ocp_replace_variable. kp. apply mk_replace. Qed.

Lemma ok_connect : forall u y r, keeps opars (ocp_connect u y r).
Proof.
  intros u y r. unfold ocp_connect. apply keeps_bind; [apply keeps_guard|]. intros _ o.
  match goal with |- opars (fst (?c o)) = _ => assert (K : keeps opars c); [|exact (K o)] end.
  kp; [apply mk_connect| |].
  - destruct r; [kp|]. kp. destruct (o_u_guess o), (o_y_guess o); kp.
  - destruct (o_u_guess o); kp.
Qed.

Lemma merge_parameters : forall q m m',
    merge [q] None m = (m', Ok tt) -> m_p m' = m_p m ++ m_p q /\ m_theta m' = m_theta m ++ m_theta q.
Proof.
  intros q m m' H. unfold merge in H. apply cbind_ok in H. destruct H as [m1 [[] [H1 H]]].
  injection H as <-. unfold include_models in H1. cbn [run_all] in H1.
  destruct (include_model q m) as [m2 [[]|e]] eqn:E; [|discriminate]. injection H1 as <-.
  unfold include_model in E.
  assert (K : forall A B (c : cmd model A) (k : A -> cmd model B) s s' b,
     keeps mpars c -> cbind c k s = (s', Ok b) -> exists s1 a, mpars s1 = mpars s /\ k a s1 = (s', Ok b)).
  { intros A B c k s s' b Hc Hk. apply cbind_ok in Hk. destruct Hk as [s1 [a [h1 h2]]]. exists s1, a. split; [|exact h2].
    pose proof (Hc s) as h. rewrite h1 in h. exact h. }
  apply K in E; [|apply mk_state]. destruct E as [s1 [a1 [E1 E]]].
  apply K in E; [|apply mk_algebraic]. destruct E as [s2 [a2 [E2 E]]].
  apply K in E; [|apply mk_control]. destruct E as [s3 [a3 [E3 E]]].
  apply cbind_ok in E. destruct E as [s4 [a4 [E4 E]]]. injection E4 as <-.
  apply cbind_ok in E. destruct E as [s5 [a5 [E5 E]]]. injection E5 as <-.
  apply K in E; [|apply mk_equations]. destruct E as [s6 [a6 [E6 E]]].
  apply K in E; [|intros s0; apply mk_replace]. destruct E as [s7 [a7 [E7 E]]].
  pose proof (mk_replace [m_tau q] [EVar (m_tau s7)] s7) as E8. rewrite E in E8. cbn [fst] in E8.
  rewrite E7, E6 in E8. unfold mpars in *. fields. rewrite E2 in E3. rewrite E1 in E3. clear E E1 E2.
  injection E3 as P1 P2. injection E8 as R1 R2. rewrite P1 in R1. rewrite P2 in R2. auto.
Qed.

Lemma own_merge : forall ps o o', optimises_own o -> Forall optimises_own ps ->
    ocp_merge ps o = (o', Ok tt) -> optimises_own o'.
Proof.
  intros ps. unfold ocp_merge. induction ps as [|q ps IH]; intros o o' Ho Hp H; cbn [run_all] in H; [injection H as <-; exact Ho|].
  destruct (merge_problem q o) as [o1 [[]|]] eqn:E; [|discriminate]. inversion Hp as [|? ? Hq Hr]; subst.
  apply IH in H; try assumption. apply merge_problem_appended in E. unfold appended in E.
  destruct E as [_ [_ [E1 [E2 E]]]]. destruct E as [_ [_ [_ [_ [_ [_ [_ [_ [_ [_ [_ [_ E]]]]]]]]]]]]. destruct E as [m' [Em Eo]].
  apply merge_parameters in Em. destruct Em as [M1 M2]. unfold optimises_own in *. rewrite Eo, E1, E2, M1, M2.
  destruct Ho, Hq. split; apply incl_app; auto using incl_appl, incl_appr.
Qed.

Lemma own_keeps : forall A (c : cmd ocp A) o o' r, keeps opars c -> optimises_own o -> c o = (o', r) -> optimises_own o'.
Proof.
  intros A c o o' r K Ho H. pose proof (K o) as E. rewrite H in E. cbn [fst] in E. unfold opars, mpars in E.
  injection E as E1 E2 E3 E4. unfold optimises_own in *. rewrite E1, E2, E3, E4. exact Ho.
Qed.

Lemma own_set_p : forall new lo hi o o', optimises_own o -> incl new (m_p (o_model o)) ->
    set_p_opt new lo hi o = (o', Ok tt) -> optimises_own o'.
Proof.
  intros new lo hi o o' [H1 H2] Hn H. unfold set_p_opt in H. grd H. grd H. do 2 modk H. unfold cmodify in H. injection H as <-.
  subst. unfold optimises_own; ofields. split; [apply incl_app; assumption|exact H2].
Qed.
Lemma own_set_th : forall new lo hi o o', optimises_own o -> incl new (m_theta (o_model o)) ->
    set_th_opt new lo hi o = (o', Ok tt) -> optimises_own o'.
Proof.
  intros new lo hi o o' [H1 H2] Hn H. unfold set_th_opt in H. grd H. grd H. do 2 modk H. unfold cmodify in H. injection H as <-.
  subst. unfold optimises_own; ofields. split; [exact H1|apply incl_app; assumption].
Qed.

Lemma own_step : forall same op o o', optimises_own o -> own_choice op o ->
    ocp_step same op o = (o', Ok tt) -> optimises_own o'.
Proof.
  intros same op o o' Ho Hc H. destruct op; cbn [ocp_step own_choice] in *;
    try (unfold include_initial_time_equality, include_final_time_equality, include_equality,
           include_time_inequality, include_time_equality in H;
         eapply own_keeps; [|exact Ho|exact H]; kp; fail).
  - eapply own_keeps; [apply ok_state|exact Ho|exact H].
  - eapply own_keeps; [|exact Ho|exact H]. unfold ocp_include_algebraic. kp; [|apply mk_algebraic].
    intros s. unfold cmodify. destruct (o_y_guess s); reflexivity.
  - eapply own_keeps; [|exact Ho|exact H]. unfold ocp_include_control. kp; [|apply mk_control].
    intros s. unfold cmodify. destruct u_guess; [|reflexivity]. cbn [fst].
    destruct (_ =? 0)%nat; [reflexivity|]. destruct (o_u_guess s); reflexivity.
  - eapply own_keeps; [|exact Ho|exact H]. unfold ocp_remove_algebraic. intros s.
    match goal with |- opars (fst (?c s)) = _ => assert (K : keeps opars c); [|exact (K s)] end.
    kp; [destruct (o_y_guess s); kp|apply mk_remove_algebraic].
  - eapply own_keeps; [|exact Ho|exact H]. unfold ocp_remove_control. intros s.
    match goal with |- opars (fst (?c s)) = _ => assert (K : keeps opars c); [|exact (K s)] end.
    kp; [destruct (o_u_guess s); kp|apply mk_remove_control].
  - eapply own_keeps; [|exact Ho|exact H]. apply keeps_model, mk_equations.
  - unfold on_model, include_parameter, cmodify in H. injection H as <-. destruct Ho.
    unfold optimises_own; ofields; fields. split; [apply incl_appl|]; assumption.
  - unfold on_model, include_theta, cmodify in H. injection H as <-. destruct Ho.
    unfold optimises_own; ofields; fields. split; [|apply incl_appl]; assumption.
  - eapply own_set_p; eassumption.
  - eapply own_set_th; eassumption.
  - unfold include_p_opt in H. apply cbind_ok in H. destruct H as [o1 [[] [H1 H]]].
    unfold on_model, include_parameter, cmodify in H1. injection H1 as <-.
    destruct Ho. eapply own_set_p; [|..|exact H]; unfold optimises_own; ofields; fields; [split; [apply incl_appl|]; assumption|].
    apply incl_appr, incl_refl.
  - unfold include_th_opt in H. apply cbind_ok in H. destruct H as [o1 [[] [H1 H]]].
    unfold on_model, include_theta, cmodify in H1. injection H1 as <-.
    destruct Ho. eapply own_set_th; [|..|exact H]; unfold optimises_own; ofields; fields; [split; [|apply incl_appl]; assumption|].
    apply incl_appr, incl_refl.
  - eapply own_keeps; [apply ok_replace|exact Ho|exact H].
  - eapply own_keeps; [|exact Ho|exact H]. unfold ocp_parametrize_control. kp; [apply mk_parametrize|apply ok_replace].
  - eapply own_keeps; [|exact Ho|exact H]. intros s. unfold create_cost_state.
    match goal with |- opars (fst (?c s)) = _ => assert (K : keeps opars c); [|exact (K s)] end.
    kp. apply ok_state.
  - eapply own_merge; eassumption.
  - eapply own_keeps; [apply ok_connect|exact Ho|exact H].
Qed.

Lemma own_history : forall same ops o o', optimises_own o -> own_choices same ops o ->
    run_all (ocp_step same) ops o = (o', Ok tt) -> optimises_own o'.
Proof.
  intros same ops; induction ops as [|op ops IH]; intros o o' Ho Hc H; cbn [run_all own_choices] in *; [injection H as <-; exact Ho|].
  destruct Hc as [C1 C2]. destruct (ocp_step same op o) as [o1 [[]|]] eqn:E; [|discriminate]. cbn [fst] in C2.
  eapply IH; [|exact C2|exact H]. eapply own_step; eassumption.
Qed.

(** ** Replacements *)

Lemma subst_vec_evaluates : forall F env v vd es,
    Forall2 (evaluates_as F env (assign env v (map (eval F env) vd))) es (subst_vec es v vd).
Proof.
  intros F env v vd es. unfold subst_vec. induction es; simpl; constructor; [apply eval_assign|assumption].
Qed.

Lemma ocp_replace_evaluates : forall F env a b o o',
    ocp_replace_variable a b o = (o', Ok tt) ->
    length a = length b /\ problem_evaluates_as F env (assign env a (map (eval F env) b)) o o'.
Proof.
  intros F env a b o o' H. unfold ocp_replace_variable in H. cbv zeta in H.
  apply cbind_ok in H. destruct H as [o1 [[] [G H]]]. apply cguard_ok in G. destruct G as [-> G].
  assert (L : length a = length b) by (destruct (Nat.eqb_spec (length a) (length b)); [assumption|discriminate]).
  split; [exact L|]. do 8 modk H. apply on_model_ok in H. destruct H as [m' [Hm E']].
  match type of Hm with replace_variable _ _ (o_model ?x) = _ =>
    assert (Em : o_model x = o_model o) by (back; reflexivity); rewrite Em in Hm end.
  rewrite replace_variable_eq, (proj2 (Nat.eqb_eq _ _) L) in Hm. cbn [negb] in Hm. injection Hm as <-.
  split.
  - unfold problem_expressions. back. repeat (constructor; [apply subst_vec_evaluates|]). constructor.
  - back. apply replaced_evaluates.
Qed.


Lemma evaluates_trans : forall F a b c l1 l2 l3,
    Forall2 (evaluates_as F b c) l1 l2 -> Forall2 (evaluates_as F a b) l2 l3 -> Forall2 (evaluates_as F a c) l1 l3.
Proof.
  intros F a b c l1 l2 l3 H. revert l3. induction H; intros l3 H3; inversion H3; subst; constructor.
  - unfold evaluates_as in *. congruence.
  - auto.
Qed.
Lemma entries_trans : forall F a b c l1 l2 l3,
    Forall2 (entry_evaluates_as F b c) l1 l2 -> Forall2 (entry_evaluates_as F a b) l2 l3 ->
    Forall2 (entry_evaluates_as F a c) l1 l3.
Proof.
  intros F a b c l1 l2 l3 H. revert l3. induction H as [|[x1 o1] [x2 o2] r1 r2 H1 H2 IH]; intros l3 H3; inversion H3 as [|? [x3 o3] ? ? H4]; subst; constructor; [|auto].
  unfold entry_evaluates_as, evaluates_as in *. cbn [fst snd] in *. destruct H1 as [-> H1], H4 as [-> H4].
  split; [reflexivity|]. destruct o1, o2, o3; try tauto. congruence.
Qed.
Lemma model_trans : forall F a b c m1 m2 m3,
    model_evaluates_as F b c m1 m2 -> model_evaluates_as F a b m2 m3 -> model_evaluates_as F a c m1 m3.
Proof.
  intros F a b c m1 m2 m3 [A1 [A2 A3]] [B1 [B2 B3]]. split; [|split].
  - eapply entries_trans; eassumption.
  - eapply evaluates_trans; eassumption.
  - eapply evaluates_trans; eassumption.
Qed.
Lemma evaluates_ext : forall F a b c l1 l2, (forall s, b s = c s) ->
    Forall2 (evaluates_as F a b) l1 l2 -> Forall2 (evaluates_as F a c) l1 l2.
Proof.
  intros F a b c l1 l2 E H. induction H; constructor; [|assumption]. unfold evaluates_as in *.
  rewrite H. apply eval_ext. intros; apply E.
Qed.
Lemma model_ext : forall F a b c m1 m2, (forall s, b s = c s) ->
    model_evaluates_as F a b m1 m2 -> model_evaluates_as F a c m1 m2.
Proof.
  intros F a b c m1 m2 E [A1 [A2 A3]]. split; [|split; eapply evaluates_ext; eassumption].
  induction A1 as [|[x1 o1] [x2 o2] r1 r2 H1 H2 IH]; constructor; [|assumption].
  unfold entry_evaluates_as, evaluates_as in *. cbn [fst snd] in *. destruct H1 as [-> H1]. split; [reflexivity|].
  destruct o1, o2; try tauto. rewrite H1. apply eval_ext. intros; apply E.
Qed.

Lemma ocp_parametrize_twice : forall F env u e v o o',
    ocp_parametrize_control u e v o = (o', Ok tt) ->
    let once := assign env u (map (eval F env) e) in
    Forall2 (Forall2 (evaluates_as F env once)) (problem_expressions o) (problem_expressions o') /\
    model_evaluates_as F env (assign once u (map (eval F once) e)) (o_model o) (o_model o').
Proof.
  intros F env u e v o o' H once. unfold ocp_parametrize_control in H.
  apply cbind_ok in H. destruct H as [o1 [[] [H1 H]]]. apply on_model_ok in H1. destruct H1 as [m1 [H1 ->]].
  apply ocp_replace_evaluates with (F := F) (env := env) in H. destruct H as [_ [P M]]. split; [exact P|].
  eapply model_trans; [|exact M]. ofields. eapply parametrized_evaluates; exact H1.
Qed.

Lemma assign_cases : forall u q s,
    (exists v, forall w, assign w u q s = v) \/ (forall w, assign w u q s = w s).
Proof.
  induction u as [|a u IH]; intros q s; simpl; [right; reflexivity|]. destruct q as [|b q]; [right; reflexivity|].
  destruct (Nat.eq_dec s a); [left; exists b; reflexivity|]. apply IH.
Qed.
Lemma assign_twice : forall env u q s, assign (assign env u q) u q s = assign env u q s.
Proof.
  intros env u q s. destruct (assign_cases u q s) as [[v H]|H]; rewrite !H; reflexivity.
Qed.

Lemma ocp_parametrize_evaluates : forall F env u e v o o',
    ocp_parametrize_control u e v o = (o', Ok tt) ->
    (forall ex c, In ex e -> In c u -> ~ mentions ex c) ->
    problem_evaluates_as F env (assign env u (map (eval F env) e)) o o'.
Proof.
  intros F env u e v o o' H Hf. apply ocp_parametrize_twice with (F := F) (env := env) in H. cbv zeta in H.
  destruct H as [P M]. split; [exact P|]. eapply model_ext; [|exact M]. intros s.
  assert (E : map (eval F (assign env u (map (eval F env) e))) e = map (eval F env) e).
  { apply map_ext_in. intros ex Hex. apply eval_ext. intros c Hc. apply assign_notin. intros Hu. exact (Hf ex c Hex Hu Hc). }
  rewrite E. apply assign_twice.
Qed.

Lemma w_C24_entries_stay :
  forall same ops o o',
    aligned o -> admissible_history (tables_of o) ops ->
    run_all (ocp_step same) ops o = (o', Ok tt) ->
    let t := tables_of o in
    let t' := tables_of o' in
    (forall r, In r (t_x t) -> In r (t_x t')) /\
    (forall r, In r (t_p t) -> In r (t_p t')) /\
    (forall r, In r (t_th t) -> In r (t_th t')) /\
    (forall c r, In (c, r) (t_u t) -> (forall op, In op ops -> ~ drops_control c op) -> In (c, r) (t_u t')) /\
    (forall c r, In (c, r) (t_y t) -> (forall op, In op ops -> ~ drops_algebraic c op) -> In (c, r) (t_y t')).
Proof.
  intros same ops o o' A Ha H. destruct (history_tables _ _ _ _ A Ha H) as [_ E]. cbv zeta. rewrite E.
  apply effects_keep.
Qed.

Lemma map_fst_combine : forall (A B : Type) (a : list A) (b : list B), length b = length a -> map fst (combine a b) = a.
Proof. intros A B a. induction a as [|x a IH]; intros [|y b] H; try discriminate; [reflexivity|]. cbn. rewrite IH by (cbn in H; lia). reflexivity. Qed.

Lemma w_C24_new_problem :
  forall m x_0 t_0 t_f o,
    new_ocp m x_0 t_0 t_f = Ok o ->
    (aligned o <-> length (match x_0 with Some v => v | None => [] end) = length (m_x m)) /\
    o_model o = m /\
    (forall lo, In lo (o_x_min o) -> lo = NInf) /\ (forall hi, In hi (o_x_max o) -> hi = PInf) /\
    map fst (t_y (tables_of o)) = m_y m /\
    (forall c lo hi, In (c, (lo, hi)) (t_y (tables_of o)) -> lo = NInf /\ hi = PInf) /\
    map fst (t_u (tables_of o)) = m_u m /\
    (forall c lo hi dlo dhi, In (c, (lo, hi, (dlo, dhi))) (t_u (tables_of o)) ->
       lo = NInf /\ hi = PInf /\ dlo = NInf /\ dhi = PInf) /\
    t_p (tables_of o) = [] /\ t_th (tables_of o) = [] /\ t_yg (tables_of o) = None /\ t_ug (tables_of o) = None.
Proof.
  intros m x_0 t_0 t_f o H.
  assert (A : aligned o <-> length (match x_0 with Some v => v | None => [] end) = length (m_x m)).
  { assert (E : o_x_0 o = (match x_0 with Some v => v | None => [] end) /\ o_model o = m).
    { unfold new_ocp in H. destruct (zip_vec _ _ _); [|discriminate]. injection H as <-. ofields. auto. }
    destruct E as [E1 E2]. split.
    - intros [[_ [_ Hx]] _]. rewrite E1, E2 in Hx. exact Hx.
    - intros Hx. eapply new_ocp_aligned; [exact H|]. rewrite E1. exact Hx. }
  split; [exact A|]. clear A. unfold new_ocp in H. destruct (zip_vec _ _ _); [|discriminate]. injection H as <-.
  unfold tables_of. ofields. cbn [t_y t_u t_p t_th t_yg t_ug option_map combine]. unfold neg_inf, pos_inf.
  repeat match goal with |- _ /\ _ => split end; try reflexivity.
  - intros lo Hi. exact (repeat_spec _ _ _ Hi).
  - intros hi Hi. exact (repeat_spec _ _ _ Hi).
  - apply map_fst_combine. rewrite combine_length, !repeat_length. lia.
  - intros c lo hi Hin. apply in_combine_r in Hin.
    split; [exact (repeat_spec _ _ _ (in_combine_l _ _ _ _ Hin)) | exact (repeat_spec _ _ _ (in_combine_r _ _ _ _ Hin))].
  - apply map_fst_combine. rewrite !combine_length, !repeat_length. lia.
  - intros c lo hi dlo dhi Hin. apply in_combine_r in Hin.
    pose proof (in_combine_l _ _ _ _ Hin) as L. pose proof (in_combine_r _ _ _ _ Hin) as R.
    split; [exact (repeat_spec _ _ _ (in_combine_l _ _ _ _ L))|].
    split; [exact (repeat_spec _ _ _ (in_combine_r _ _ _ _ L))|].
    split; [exact (repeat_spec _ _ _ (in_combine_l _ _ _ _ R)) | exact (repeat_spec _ _ _ (in_combine_r _ _ _ _ R))].
Qed.

Lemma w_C24_state_bound_lists_refuted :
  exists o o', reachable o /\ aligned o /\
    ocp_include_state [10; 11] None (Some [0; 0]%Q) (BList [Fin 2; Fin 1]%Q) BNone None [12; 13] false o
      = (o', Ok tt) /\
    o_x_min o = [] /\ o_x_min o' = [Fin 0; Fin 0]%Q.
Proof.
  eexists; eexists. split; [exists (fun _ _ => false), 1%nat, 2%nat, 0%Q, 10%Q, []; eexists; split; vm_compute; reflexivity|].
  split; [vm_compute; tauto|]. split; [vm_compute; reflexivity|]. split; reflexivity.
Qed.

Lemma w_C24_initial_equation_kept_refuted :
  exists o o', reachable o /\
    ocp_include_state [10] None (Some [0%Q]) BNone BNone (Some [EBin OSub (EVar 10) (EConst 5)]) [11] false o
      = (o', Ok tt) /\
    ~ In (EBin OSub (EVar 10) (EConst 5)) (o_h_initial o').
Proof.
  eexists; eexists. split; [exists (fun _ _ => false), 1%nat, 2%nat, 0%Q, 10%Q, []; eexists; split; vm_compute; reflexivity|].
  split; [vm_compute; reflexivity|]. vm_compute. intros [H|[]]. discriminate.
Qed.

Lemma w_C24_algebraic_guess_kept_refuted :
  exists o o', reachable o /\ m_y (o_model o) = [] /\
    ocp_include_algebraic [20] None None None (Some [7%Q]) o = (o', Ok tt) /\ o_y_guess o' = None.
Proof.
  eexists; eexists. split; [exists (fun _ _ => false), 1%nat, 2%nat, 0%Q, 10%Q, []; eexists; split; vm_compute; reflexivity|].
  split; [reflexivity|]. split; vm_compute; reflexivity.
Qed.

Lemma w_C25_state_sizes :
  forall var ode x_0 lo hi h s b o,
    short_list lo -> short_list hi ->
    ~ (if_given (has_size (length var)) (bound_given lo) /\ if_given (has_size (length var)) (bound_given hi) /\
       if_given (has_size (length var)) x_0) ->
    exists e, ocp_include_state var ode x_0 lo hi h s b o = (o, Raise e).
Proof.
  intros var ode x_0 lo hi h s b o Sl Sh Hbad. unfold ocp_include_state, cbind, cguard.
  destruct (match x_0, h with None, None => negb b | _, _ => false end); [eexists; reflexivity|].
  destruct (state_bound lo _) as [blo|] eqn:El; [|eexists; reflexivity].
  destruct (state_bound hi _) as [bhi|] eqn:Eh; [|eexists; reflexivity].
  apply state_bound_short in El; [|exact Sl]. apply state_bound_short in Eh; [|exact Sh].
  destruct El as [_ El], Eh as [_ Eh].
  destruct (Nat.eqb_spec (length var) (length (snd bhi))) as [Hh|]; cbn [negb]; [|eexists; reflexivity].
  destruct (Nat.eqb_spec (length var) (length (snd blo))) as [Hl|]; cbn [negb]; [|eexists; reflexivity].
  assert (Fl : if_given (has_size (length var)) (bound_given lo)).
  { revert El. destruct (bound_given lo); simpl; [|intros; exact I]. unfold has_size. congruence. }
  assert (Fh : if_given (has_size (length var)) (bound_given hi)).
  { revert Eh. destruct (bound_given hi); simpl; [|intros; exact I]. unfold has_size. congruence. }
  assert (Hx : match x_0 with Some v => negb (length var =? length v)%nat | None => false end = true).
  { destruct x_0 as [v|].
    - apply negb_true_iff, Nat.eqb_neq. intros E. apply Hbad. split; [exact Fl|]. split; [exact Fh|]. symmetry. exact E.
    - exfalso. apply Hbad. split; [exact Fl|]. split; [exact Fh|exact I]. }
  rewrite Hx. eexists; reflexivity.
Qed.

Lemma w_C25_initial_condition_required :
  forall var ode lo hi s o,
    ocp_include_state var ode None lo hi None s false o = (o, Raise AnyException).
Proof. reflexivity. Qed.

Lemma w_C25_algebraic_sizes :
  forall var alg lo hi g o,
    ~ (if_given (has_size (length var)) lo /\ if_given (has_size (length var)) hi) ->
    ocp_include_algebraic var alg lo hi g o = (o, Raise ValueError).
Proof.
  intros var alg lo hi g o Hbad. unfold ocp_include_algebraic, cbind, cguard.
  destruct (Nat.eqb_spec (length var) (length (given lo (neg_inf (length var))))) as [Hl|]; cbn [negb]; [|reflexivity].
  destruct (Nat.eqb_spec (length var) (length (given hi (pos_inf (length var))))) as [Hh|]; cbn [negb]; [|reflexivity].
  exfalso. apply Hbad. destruct lo, hi; simpl in *; unfold has_size; auto.
Qed.

Lemma w_C25_control_sizes :
  forall var lo hi dlo dhi g o,
    let n := length var in
    let fits := if_given (control_size n) lo /\ if_given (control_size n) hi /\
                if_given (control_size n) dlo /\ if_given (control_size n) dhi /\
                if_given (has_size n) g /\ (o_u_guess o <> None -> g <> None) in
    (fits -> exists o', ocp_include_control var lo hi dlo dhi g o = (o', Ok tt)) /\
    (~ fits -> ocp_include_control var lo hi dlo dhi g o = (o, Raise ValueError)).
Proof.
  intros var lo hi dlo dhi g o n fits. unfold ocp_include_control. fold n.
  assert (K : forall a d, (d = neg_inf n \/ d = pos_inf n) ->
            negb (n =? length (broadcast (given a d) n))%nat = false <-> if_given (control_size n) a).
  { intros a d Hd. rewrite negb_false_iff, Nat.eqb_eq. unfold control_size.
    destruct a as [v|]; simpl.
    - destruct v as [|x [|y v]]; simpl; try (split; [intros ->; left; reflexivity | intros [H|[H _]]; congruence]).
      destruct n as [|[|n']]; simpl; try (split; [intros ?; left; congruence | intros [H|[_ H]]; congruence || lia]).
      rewrite repeat_length. split; [intros _; right; lia|reflexivity].
    - split; [reflexivity|]. intros _.
      assert (broadcast d n = d) as ->.
      { destruct Hd as [-> | ->]; unfold neg_inf, pos_inf; destruct n as [|[|n']]; reflexivity. }
      destruct Hd as [-> | ->]; unfold neg_inf, pos_inf; rewrite repeat_length; reflexivity. }
  pose proof (K lo (neg_inf n) (or_introl eq_refl)) as K1. pose proof (K hi (pos_inf n) (or_intror eq_refl)) as K2.
  pose proof (K dlo (neg_inf n) (or_introl eq_refl)) as K3. pose proof (K dhi (pos_inf n) (or_intror eq_refl)) as K4.
  assert (K5 : match g with Some g => negb (n =? length g)%nat | None => false end = false <-> if_given (has_size n) g).
  { destruct g as [v|]; simpl; [|tauto]. rewrite negb_false_iff, Nat.eqb_eq. unfold has_size. split; congruence. }
  assert (K6 : match g, o_u_guess o with None, Some _ => true | _, _ => false end = false <->
               (o_u_guess o <> None -> g <> None)).
  { destruct g, (o_u_guess o); split; try congruence; intros H; exfalso; apply H; congruence. }
  unfold cbind, cguard, cmodify.
  destruct (match g, o_u_guess o with None, Some _ => true | _, _ => false end);
  [split; [intros Hf; exfalso; unfold fits in Hf; assert (true = false) by tauto; discriminate | reflexivity]|].
  destruct (negb (n =? length (broadcast (given lo (neg_inf n)) n))%nat);
  [split; [intros Hf; exfalso; unfold fits in Hf; assert (true = false) by tauto; discriminate | reflexivity]|].
  destruct (negb (n =? length (broadcast (given hi (pos_inf n)) n))%nat);
  [split; [intros Hf; exfalso; unfold fits in Hf; assert (true = false) by tauto; discriminate | reflexivity]|].
  destruct (negb (n =? length (broadcast (given dlo (neg_inf n)) n))%nat);
  [split; [intros Hf; exfalso; unfold fits in Hf; assert (true = false) by tauto; discriminate | reflexivity]|].
  destruct (negb (n =? length (broadcast (given dhi (pos_inf n)) n))%nat);
  [split; [intros Hf; exfalso; unfold fits in Hf; assert (true = false) by tauto; discriminate | reflexivity]|].
  destruct (match g with Some g => negb (n =? length g)%nat | None => false end);
  [split; [intros Hf; exfalso; unfold fits in Hf; assert (true = false) by tauto; discriminate | reflexivity]|].
  split.
  - intros _. eexists. unfold on_model, include_control, cbind, cmodify. reflexivity.
  - intros Hf. exfalso. apply Hf. unfold fits. tauto.
Qed.

Lemma w_C25_parameter_sizes :
  forall new lo hi o,
    ~ (if_given (has_size (length new)) lo /\ if_given (has_size (length new)) hi) ->
    set_p_opt new lo hi o = (o, Raise ValueError) /\ set_th_opt new lo hi o = (o, Raise ValueError).
Proof.
  intros new lo hi o Hbad. unfold set_p_opt, set_th_opt, cbind, cguard.
  destruct (Nat.eqb_spec (length new) (length (given hi (pos_inf (length new))))) as [Hh|]; cbn [negb]; [|auto].
  destruct (Nat.eqb_spec (length new) (length (given lo (neg_inf (length new))))) as [Hl|]; cbn [negb]; [|auto].
  exfalso. apply Hbad. destruct lo, hi; simpl in *; unfold has_size; auto.
Qed.

Lemma w_C25_equation_sizes_atomic_refuted :
  exists o, reachable o /\ aligned o /\
    let r := ocp_include_state [10] (Some [EConst 1; EConst 2]%Q) (Some [0%Q]) BNone BNone None [11] false o in
    (exists e, snd r = Raise e) /\ m_x (o_model (fst r)) = [10] /\ o_x_min (fst r) = [] /\ ~ aligned (fst r).
Proof.
  eexists. split; [exists (fun _ _ => false), 1%nat, 2%nat, 0%Q, 10%Q, []; eexists; split; vm_compute; reflexivity|].
  split; [vm_compute; tauto|]. cbv zeta. split; [eexists; vm_compute; reflexivity|]. split; [vm_compute; reflexivity|].
  split; [vm_compute; reflexivity|]. intros [[H _] _]. vm_compute in H. discriminate.
Qed.

Lemma w_C25_duplicate_state_atomic_refuted :
  exists o, reachable o /\ aligned o /\
    let r := ocp_include_state [10] None (Some [0%Q]) BNone BNone None [12] false o in
    snd r = Raise ValueError /\ m_x (o_model (fst r)) = [10; 10] /\ ~ aligned (fst r).
Proof.
  eexists. split; [exists (fun _ _ => false), 1%nat, 2%nat, 0%Q, 10%Q,
    [PIncludeState [10] None (Some [0%Q]) BNone BNone None [11] false]; eexists; split; vm_compute; reflexivity|].
  split; [vm_compute; tauto|]. cbv zeta. split; [vm_compute; reflexivity|]. split; [vm_compute; reflexivity|].
  intros [[H _] _]. vm_compute in H. discriminate.
Qed.

Lemma w_C25_algebraic_guess_size_refuted :
  exists o o', reachable o /\ aligned o /\
    ocp_include_algebraic [20] (Some [EVar 20; EVar 21]) None None (Some [1; 2; 3]%Q) o = (o', Ok tt) /\
    ~ guess_fits (o_y_guess o') (length (m_y (o_model o'))) /\
    length (m_alg (o_model o')) = 2%nat /\ m_y (o_model o') = [20].
Proof.
  pose (o0 := match new_ocp (new_model 1 2) None 0%Q 10%Q with Ok o => o | Raise _ => mkOcp 0 0 [] (new_model 1 2) [] [] [] [] [] [] [] [] [] [] [] [] [] [] [] [] [] [] [] [] [] [] [] [] [] None None None false None end).
  pose (q := set_o_y_guess (Some []) o0).
  assert (Hq : reachable (fst (merge_problem q o0))).
  { exists (fun _ _ => false), 1%nat, 2%nat, 0%Q, 10%Q, [PMerge [q]], o0. split; [reflexivity|]. vm_compute. reflexivity. }
  exists (fst (merge_problem q o0)). eexists. split; [exact Hq|]. split; [vm_compute; tauto|].
  split; [vm_compute; reflexivity|]. split; [vm_compute; discriminate|]. split; vm_compute; reflexivity.
Qed.

Lemma w_C25_parameter_atomic_refuted :
  exists o, reachable o /\
    let r := include_p_opt [40] (Some []) None o in
    snd r = Raise ValueError /\ m_p (o_model o) = [] /\ m_p (o_model (fst r)) = [40] /\ o_p_opt (fst r) = [].
Proof.
  eexists. split; [exists (fun _ _ => false), 1%nat, 2%nat, 0%Q, 10%Q, []; eexists; split; vm_compute; reflexivity|].
  cbv zeta. repeat split; vm_compute; reflexivity.
Qed.

Lemma w_C25_failed_removal_atomic_refuted :
  exists o, reachable o /\ aligned o /\
    let r := ocp_remove_control [30] o in
    snd r = Raise ValueError /\ o_u_min o = [NInf] /\ o_u_min (fst r) = [].
Proof.
  eexists. split; [exists (fun _ _ => false), 1%nat, 2%nat, 0%Q, 10%Q,
    [PIncludeControl [30] None None None None None; PParametrizeControl [30] [EConst 1%Q] None];
    eexists; split; vm_compute; reflexivity|].
  split; [vm_compute; tauto|]. cbv zeta. repeat split; vm_compute; reflexivity.
Qed.

Lemma w_C26_bounds :
  forall ps o o',
    aligned o -> Forall aligned ps -> ocp_merge ps o = (o', Ok tt) ->
    aligned o' /\
    tables_of o' = fold_left (fun t q => tables_append t (tables_of q)) ps (tables_of o).
Proof.
  intros ps o o' A Ap H. pose proof (rep_merge ps _ _ _ (aligned_rep o A) Ap H) as R.
  split; [eapply rep_aligned; exact R|]. symmetry. exact (rep_tables _ _ R).
Qed.

Lemma w_C26_costs :
  forall ps o o' l ls,
    ocp_merge ps o = (o', Ok tt) ->
    (o_L o = [l] -> Forall2 (fun q c => o_L q = [c]) ps ls ->
       exists e, o_L o' = [e] /\
         forall F env, (eval F env e == eval F env l + qsum (map (eval F env) ls))%Q) /\
    (o_V o = [l] -> Forall2 (fun q c => o_V q = [c]) ps ls ->
       exists e, o_V o' = [e] /\
         forall F env, (eval F env e == eval F env l + qsum (map (eval F env) ls))%Q) /\
    (o_S o = [l] -> Forall2 (fun q c => o_S q = [c]) ps ls ->
       exists e, o_S o' = [e] /\
         forall F env, (eval F env e == eval F env l + qsum (map (eval F env) ls))%Q).
Proof.
  intros ps o o' l ls H. repeat split; intros H1 H2.
  - apply (merge_costs o_L) with (ps := ps) (o := o); try assumption.
    intros q a b E. apply merge_problem_appended in E. unfold appended in E. tauto.
  - apply (merge_costs o_V) with (ps := ps) (o := o); try assumption.
    intros q a b E. apply merge_problem_appended in E. unfold appended in E. tauto.
  - apply (merge_costs o_S) with (ps := ps) (o := o); try assumption.
    intros q a b E. apply merge_problem_appended in E. unfold appended in E. tauto.
Qed.

Lemma w_C26_other_horizon_refused :
  forall ps q rest o o1,
    ocp_merge ps o = (o1, Ok tt) -> ~ same_horizon o q ->
    ocp_merge (ps ++ q :: rest) o = (o1, Raise ValueError).
Proof.
  intros ps q rest o o1 H Hq.
  assert (Hh : ~ same_horizon o1 q).
  { apply merge_all_appended in H. destruct H as [_ [T0 [TF _]]]. unfold same_horizon. rewrite T0, TF. exact Hq. }
  clear Hq. revert o H. unfold ocp_merge. induction ps as [|p ps IH]; intros o H; simpl in *.
  - injection H as <-. rewrite (merge_problem_refused q o Hh). reflexivity.
  - destruct (merge_problem p o) as [o2 [[]|]]; [|discriminate]. apply IH. exact H.
Qed.

Lemma w_C26_guess_kept_refuted :
  exists o q o', aligned o /\ aligned q /\ reachable q /\ m_u (o_model q) = [] /\
    ocp_merge [q] o = (o', Ok tt) /\ o_u_guess o = Some [1%Q] /\ o_u_guess o' = None.
Proof.
  pose (o0 := match new_ocp (new_model 1 2) None 0%Q 10%Q with Ok o => o | Raise _ => mkOcp 0 0 [] (new_model 1 2) [] [] [] [] [] [] [] [] [] [] [] [] [] [] [] [] [] [] [] [] [] [] [] [] [] None None None false None end).
  exists (fst (ocp_include_control [30] None None None None (Some [1%Q]) o0)), o0. eexists.
  split; [vm_compute; tauto|]. split; [vm_compute; tauto|].
  split; [exists (fun _ _ => false), 1%nat, 2%nat, 0%Q, 10%Q, []; eexists; split; vm_compute; reflexivity|].
  split; [reflexivity|]. split; [vm_compute; reflexivity|]. split; vm_compute; reflexivity.
Qed.

Lemma w_C26_one_time_refuted :
  exists o q o', reachable o /\ reachable q /\ ocp_merge [q] o = (o', Ok tt) /\
    m_t (o_model o') = 1%nat /\ m_t (o_model q) = 5%nat /\
    (exists e, In e (o_g_ineq o') /\ mentions e 5) /\
    (forall e, In e (ode (o_model o')) -> ~ mentions e 5) /\ ~ In 5%nat (all_sym (o_model o')).
Proof.
  eexists. eexists. eexists.
  split; [exists (fun _ _ => false), 1%nat, 2%nat, 0%Q, 10%Q, []; eexists; split; vm_compute; reflexivity|].
  split; [exists (fun _ _ => false), 5%nat, 6%nat, 0%Q, 10%Q,
    [PIncludeState [10] (Some [EVar 5]) (Some [0%Q]) BNone BNone None [11] false;
     PTimeInequality [EBin OSub (EVar 10) (EVar 5)] "default"]; eexists; split; vm_compute; reflexivity|].
  split; [vm_compute; reflexivity|]. split; [vm_compute; reflexivity|]. split; [vm_compute; reflexivity|].
  split; [eexists; split; [left; reflexivity|vm_compute; tauto]|].
  split.
  - intros e He. vm_compute in He. destruct He as [<-|[]]. unfold mentions. simpl. intros [H|[]]. discriminate.
  - vm_compute. intros H. intuition discriminate.
Qed.

Lemma w_C27_bounds_move :
  forall u y o o',
    aligned o -> (forall c, In c u -> length (rows_of [c] (t_u (tables_of o))) = 1%nat) ->
    (o_y_guess o <> None -> o_u_guess o <> None) ->
    ocp_connect u y false o = (o', Ok tt) ->
    let t := tables_of o in
    let t' := tables_of o' in
    aligned o' /\
    (forall c lo hi d, In c u -> In (c, (lo, hi, d)) (t_u t) -> In (c, (lo, hi)) (t_y t')) /\
    (forall c, In c u -> ~ In c (m_u (o_model o'))) /\
    (exists rows, t_y t' = t_y t ++ rows /\ map fst rows = u) /\
    t_u t' = rows_except u (t_u t) /\ t_x t' = t_x t /\ t_p t' = t_p t /\ t_th t' = t_th t /\
    problem_expressions o' = problem_expressions o.
Proof.
  intros u y o o' A Hone Hg H. cbv zeta.
  assert (Hg' : t_yg (tables_of o) <> None -> t_ug (tables_of o) <> None).
  { unfold tables_of. cbn [t_yg t_ug]. clear - Hg. destruct (o_y_guess o), (o_u_guess o); cbn [option_map] in *; intros N; try congruence. exfalso; apply Hg; congruence. }
  pose proof (rep_connect _ _ _ _ _ (aligned_rep o A) Hone Hg' H) as R.
  pose proof (rep_tables _ _ R) as E. rewrite <- E. clear E.
  pose proof (r_vars _ _ R) as V. unfold mvars in V. injection V as _ _ Vu.
  split; [eapply rep_aligned; exact R|]. cbn [table_effect t_x t_y t_u t_p t_th] in *.
  split; [|split; [|split; [|split; [reflexivity|split; [reflexivity|split; [reflexivity|split; [reflexivity|]]]]]]].
  - intros c lo hi d Hc Hin. apply in_or_app. right. apply in_map_iff. exists (c, (lo, hi, d)). split; [reflexivity|].
    unfold rows_of. apply in_flat_map. exists c. split; [exact Hc|]. apply filter_In. split; [exact Hin|]. apply Nat.eqb_refl.
  - intros c Hc Hin. rewrite Vu, rows_except_fst in Hin. apply filter_In in Hin. destruct Hin as [_ Hin].
    apply not_in_true in Hin. contradiction.
  - eexists. split; [reflexivity|]. rewrite map_map. cbn [fst]. exact (rows_of_fst _ u _ Hone).
  - pose proof (connect_stays u y false o) as S. rewrite H in S. exact (proj1 S).
Qed.

Lemma w_C27_guess_consistent_refuted :
  exists o o', reachable o /\ aligned o /\ ocp_connect [30] [EVar 20] false o = (o', Ok tt) /\
    ~ guess_fits (o_y_guess o') (length (m_y (o_model o'))).
Proof.
  pose (o0 := match new_ocp (new_model 1 2) None 0%Q 10%Q with Ok o => o | Raise _ => mkOcp 0 0 [] (new_model 1 2) [] [] [] [] [] [] [] [] [] [] [] [] [] [] [] [] [] [] [] [] [] [] [] [] [] None None None false None end).
  pose (q := set_o_y_guess (Some []) o0).
  eexists. eexists. split.
  { exists (fun _ _ => false), 1%nat, 2%nat, 0%Q, 10%Q,
      [PMerge [q]; PIncludeAlgebraic [20] None None None None; PIncludeControl [30] None None None None None], o0.
    split; [reflexivity|]. vm_compute. reflexivity. }
  split; [vm_compute; tauto|]. split; [vm_compute; reflexivity|]. vm_compute. discriminate.
Qed.

Lemma w_C27_only_controls_refuted :
  exists o o', reachable o /\ aligned o /\ ocp_connect [30; 99] [EVar 20; EVar 20] false o = (o', Ok tt) /\
    length (o_y_min o') <> length (m_y (o_model o')) /\ ~ In 99 (m_u (o_model o)).
Proof.
  eexists. eexists. split.
  { exists (fun _ _ => false), 1%nat, 2%nat, 0%Q, 10%Q,
      [PIncludeAlgebraic [20] None None None None; PIncludeControl [30] None None None None None]; eexists.
    split; vm_compute; reflexivity. }
  split; [vm_compute; tauto|]. split; [vm_compute; reflexivity|]. split; [vm_compute; discriminate|].
  vm_compute. intros [H|[]]. discriminate.
Qed.

Lemma w_C27_replace_keeps_meaning_refuted :
  exists o o', reachable o /\ aligned o /\ ocp_connect [30] [EVar 20] true o = (o', Ok tt) /\
    (exists e, In e (o_g_ineq o') /\ mentions e 30) /\ ~ In 30 (all_sym (o_model o')) /\
    o_u_max o = [Fin 5%Q] /\ o_u_max o' = [] /\ o_y_max o' = [PInf].
Proof.
  eexists. eexists. split.
  { exists (fun _ _ => false), 1%nat, 2%nat, 0%Q, 10%Q,
      [PIncludeAlgebraic [20] None None None None; PIncludeControl [30] None (Some [Fin 5%Q]) None None None;
       PTimeInequality [EVar 30] "default"]; eexists.
    split; vm_compute; reflexivity. }
  split; [vm_compute; tauto|]. split; [vm_compute; reflexivity|].
  split; [eexists; split; [left; reflexivity|left; reflexivity]|].
  split; [vm_compute; intros H; intuition discriminate|]. repeat split; vm_compute; reflexivity.
Qed.

Lemma w_C28_histories_pass :
  forall same ops o o',
    aligned o -> admissible_history (tables_of o) ops ->
    run_all (ocp_step same) ops o = (o', Ok tt) ->
    length (o_L o') = 1%nat -> length (o_V o') = 1%nat -> pre_solve_check o' = Ok tt.
Proof.
  intros same ops o o' A Ha H HL HV. destruct (history_tables _ _ _ _ A Ha H) as [A' _].
  apply (proj1 (check_exact o')). unfold ready_to_solve, aligned in *. tauto.
Qed.

Lemma w_C28_guesses_checked_refuted :
  exists o, pre_solve_check o = Ok tt /\ ~ guess_fits (o_y_guess o) (length (m_y (o_model o))) /\
    ~ guess_fits (o_u_guess o) (length (m_u (o_model o))) /\ length (o_S o) = 2%nat.
Proof.
  pose (o0 := match new_ocp (new_model 1 2) None 0%Q 10%Q with Ok o => o | Raise _ => mkOcp 0 0 [] (new_model 1 2) [] [] [] [] [] [] [] [] [] [] [] [] [] [] [] [] [] [] [] [] [] [] [] [] [] None None None false None end).
  exists (set_o_y_guess (Some [1%Q]) (set_o_u_guess (Some [1%Q]) (set_o_S [EConst 0%Q; EConst 0%Q] o0))).
  split; [vm_compute; reflexivity|]. split; [vm_compute; discriminate|]. split; [vm_compute; discriminate|reflexivity].
Qed.

Lemma w_C29_times_in_horizon_refuted :
  exists integrate defaults F o s,
    o_t_0 o = 10%Q /\ o_t_f o = 20%Q /\ pre_solve_check o = Ok tt /\
    ocp_simulate integrate defaults F o None TNone None (Some 2) UNone [] None None None [] = Ok s /\
    exists t, map fst (s_x s) = [10%Q; t] /\ (t == 5)%Q.
Proof.
  exists (fun c => Ok ([1%Q], [])), [], (fun _ q => q).
  exists (fst (run_all (ocp_step (fun _ _ => false))
    [PIncludeState [10] (Some [EVar 10]) (Some [1%Q]) BNone BNone None [11] false]
    (match new_ocp (new_model 1 2) None 10%Q 20%Q with Ok o => o | Raise _ => mkOcp 0 0 [] (new_model 1 2) [] [] [] [] [] [] [] [] [] [] [] [] [] [] [] [] [] [] [] [] [] [] [] [] [] None None None false None end))).
  eexists. split; [reflexivity|]. split; [reflexivity|]. split; [vm_compute; reflexivity|].
  split; [vm_compute; reflexivity|]. eexists. split; [vm_compute; reflexivity|]. reflexivity.
Qed.

Lemma w_C60_positions :
  forall o,
    optimises_own o -> NoDup (m_p (o_model o)) -> NoDup (m_theta (o_model o)) ->
    map (nth_error (m_p (o_model o))) (get_p_opt_indices o) = map Some (o_p_opt o) /\
    map (nth_error (m_theta (o_model o))) (get_theta_opt_indices o) = map Some (o_theta_opt o).
Proof. intros o [H1 H2] N1 N2. split; [apply opt_indices|apply opt_theta_indices]; assumption. Qed.

Lemma w_C60_foreign_refused_refuted :
  exists o o', reachable o /\ set_p_opt [77] None None o = (o', Ok tt) /\
    ~ In 77 (m_p (o_model o)) /\ o_p_opt o' = [77] /\ get_p_opt_indices o' = [] /\
    pre_solve_check o' = Ok tt.
Proof.
  eexists. eexists. split.
  { exists (fun _ _ => false), 1%nat, 2%nat, 0%Q, 10%Q, [PIncludeParameter [40]]; eexists; split; vm_compute; reflexivity. }
  split; [vm_compute; reflexivity|]. split; [vm_compute; intros [H|[]]; discriminate|]. repeat split; vm_compute; reflexivity.
Qed.

Lemma w_C62_consistent_refuted :
  exists o o', reachable o /\ ocp_parametrize_control [30] [EBin OAdd (EVar 30) (EConst 1%Q)] None o = (o', Ok tt) /\
    o_g_ineq o = [EVar 30] /\ ode (o_model o) = [EVar 30] /\
    (forall F env, map (eval F env) (o_g_ineq o') = [env 30%nat + 1]%Q /\
                   map (eval F env) (ode (o_model o')) = [env 30%nat + 1 + 1]%Q).
Proof.
  eexists. eexists. split.
  { exists (fun _ _ => false), 1%nat, 2%nat, 0%Q, 10%Q,
      [PIncludeControl [30] None None None None None;
       PIncludeState [10] (Some [EVar 30]) (Some [1%Q]) BNone BNone None [11] false;
       PTimeInequality [EVar 30] "default"]; eexists.
    split; vm_compute; reflexivity. }
  split; [vm_compute; reflexivity|]. split; [vm_compute; reflexivity|]. split; [vm_compute; reflexivity|].
  intros F env. split; reflexivity.
Qed.

Lemma simulate_defaults : forall integrate defaults F o x_0 t_f t_0 n u p theta y_0 ty user,
    let go := ocp_simulate integrate defaults F o in
    go None t_f t_0 n u p theta y_0 ty user = go (Some (o_x_0 o)) t_f t_0 n u p theta y_0 ty user /\
    go x_0 TNone t_0 n u p theta y_0 ty user = go x_0 (TNum (o_t_f o)) t_0 n u p theta y_0 ty user /\
    go x_0 t_f None n u p theta y_0 ty user = go x_0 t_f (Some (o_t_0 o)) n u p theta y_0 ty user /\
    (forall g, o_u_guess o = Some g ->
       go x_0 t_f t_0 n UNone p theta y_0 ty user = go x_0 t_f t_0 n (UVec g) p theta y_0 ty user) /\
    (forall g, o_y_guess o = Some g ->
       go x_0 t_f t_0 n u p theta None ty user = go x_0 t_f t_0 n u p theta (Some g) ty user) /\
    go x_0 t_f t_0 n u p theta y_0 None user = go x_0 t_f t_0 n u p theta y_0 (Some "implicit"%string) user.
Proof.
  intros integrate defaults F o x_0 t_f t_0 n u p theta y_0 ty user go. subst go. unfold ocp_simulate.
  repeat match goal with |- _ /\ _ => split end; try reflexivity; intros g ->; reflexivity.
Qed.

(** Proofs about the preparation by the direct method. *)
From Coq Require Import String Qabs Lqa Sorted Setoid.
From Verif Require Import Base BaseProofs UtilModel ExprModel ExprProofs NlpModel NlpSpec SysModel SysSpec SysProofs
  OcpModel OcpSpec OcpProofs SimModel LagModel LagSpec LagProofs DiscModel DiscSpec ColSpec ColEvalProofs ColPolyProofs DirSpec.
Local Open Scope list_scope.
Local Open Scope cmd_scope.

(** ** Values of the control polynomials *)

Lemma assign_Qeq : forall env v p q, Forall2 Qeq p q -> forall s, (assign env v p s == assign env v q s)%Q.
Proof.
  intros env v. induction v as [|a v IH]; intros p q H s; [reflexivity|].
  destruct H as [|x y p q Hxy H]; [reflexivity|]. cbn [assign]. destruct (Nat.eq_dec s a); [exact Hxy | apply IH, H].
Qed.

Lemma control_value : forall F points tau n d first env c i,
    (0 < d)%nat -> length (points d) = d -> distinct (points d) ->
    let (pol, par) := create_polynomial_approximation points tau n d first false in
    through (points d) n (map env par) c -> (i < n)%nat ->
    (eval F env (nth i pol (EConst 0)) == poly (c i) (env tau))%Q.
Proof.
  intros F points tau n d first env c i Hd Hl Hdist. unfold create_polynomial_approximation. cbn [andb].
  destruct (Nat.eqb_spec d 1) as [->|Hd1]; intros T Hi; destruct (T i Hi) as [Lc Tc].
  - rewrite Hl in Lc. destruct (points 1%nat) as [|r [|r' rs]] eqn:Ep; try discriminate.
    specialize (Tc 0%nat r (env (point_sym first 1 i 0)) eq_refl). rewrite nth_error_map in Tc.
    assert (E : nth_error (vec_points first n 1) (0 * n + i) = Some (point_sym first 1 i 0)).
    { rewrite (nth_error_nth' _ 0%nat) by (rewrite vec_points_length; lia). f_equal.
      apply (vec_points_nth first n 1 i 0 0%nat); [exact Hi | lia]. }
    rewrite E in Tc. specialize (Tc eq_refl).
    rewrite (nth_indep _ _ (EVar (point_sym first 1 0 0))) by (rewrite map_length, seq_length; exact Hi).
    rewrite (map_nth (fun i0 => EVar (point_sym first 1 i0 0))), seq_nth by exact Hi. cbn [eval Nat.add].
    rewrite <- Tc. destruct (c i) as [|a [|b l]]; [reflexivity | cbn; ring | cbn in Lc; lia].
  - rewrite util_basis_over. unfold interpolation_points.
    rewrite combination_nth by (assumption || lia).
    rewrite <- (interpolation_reproduces F env tau (points d) (c i) Hdist Lc). rewrite Hl.
    apply terms_ext. intros j Hj. 
    assert (Ej : nth_error (points d) j = Some (nth j (points d) 0%Q)) by (apply nth_error_nth'; lia).
    specialize (Tc j _ (env (point_sym first d i j)) Ej). rewrite nth_error_map in Tc.
    rewrite Tc; [reflexivity|].
    rewrite (nth_error_nth' _ 0%nat) by (rewrite vec_points_length; nia). cbn [option_map]. f_equal. f_equal.
    apply vec_points_nth; assumption.
Qed.

Lemma poly_size : forall points tau n d first, (0 < d)%nat ->
    (length (snd (create_polynomial_approximation points tau n d first false)) = (d * n)%nat /\
     NoDup (snd (create_polynomial_approximation points tau n d first false))) /\
    length (fst (create_polynomial_approximation points tau n d first false)) = n.
Proof.
  intros points tau n d first Hd. pose proof (w_C08_parameter_count points tau n d first false) as H. cbn [andb] in H.
  split; [split; [|apply H]; rewrite (proj1 H); lia|].
  unfold create_polynomial_approximation. cbn [andb]. destruct (Nat.eqb_spec d 1); cbn [fst].
  - rewrite map_length, seq_length. reflexivity.
  - apply combination_length. lia.
Qed.
Lemma Forall2_nth_intro : forall (A B : Type) (P : A -> B -> Prop) a b, length a = length b ->
    (forall i x y, nth_error a i = Some x -> nth_error b i = Some y -> P x y) -> Forall2 P a b.
Proof.
  intros A B P a. induction a as [|x a IH]; intros [|y b] L H; try discriminate; constructor.
  - apply (H 0%nat); reflexivity.
  - apply IH; [cbn in L; lia|]. intros i. exact (H (S i)).
Qed.

Lemma substituted : forall F (m : model) points d first e pol par,
    respects F -> (0 < d)%nat -> length (points d) = d -> distinct (points d) ->
    create_variable_polynomial_approximation points (m_tau m) (length (m_u m)) d first false = Ok (pol, par) ->
    steered F m (points d) par e (substitute e (m_u m) pol).
Proof.
  intros F m points d first e pol par HF Hd Hl Hdist H env c T.
  rewrite w_C08_method_approximation in H by auto.
  pose proof (fun i => control_value F points (m_tau m) (length (m_u m)) d first env c i Hd Hl Hdist) as V.
  destruct (poly_size points (m_tau m) (length (m_u m)) d first Hd) as [_ L].
  destruct (create_polynomial_approximation points (m_tau m) (length (m_u m)) d first false) as [pol' par'].
  injection H as -> ->. cbn [fst] in L. rewrite eval_assign. apply eval_ext_Qeq; [exact HF|]. intros s _. apply assign_Qeq.
  apply Forall2_nth_intro; [rewrite !map_length, seq_length; exact L|].
  intros i x y Hx Hy. rewrite nth_error_map in Hx, Hy.
  destruct (nth_error pol i) as [e'|] eqn:Ei; [|discriminate]. injection Hx as <-.
  assert (Hi : (i < length (m_u m))%nat) by (rewrite <- L; apply nth_error_Some; congruence).
  rewrite (nth_error_nth' _ 0%nat) in Hy by (rewrite seq_length; exact Hi). rewrite seq_nth in Hy by exact Hi.
  injection Hy as <-. rewrite <- (nth_error_nth _ _ (EConst 0) Ei). apply V; assumption.
Qed.

(** ** What the preparation does *)

Lemma include_cost_state : forall x_c x_c0 l m m',
    include_state [x_c] (Some [l]) [x_c0] m = (m', Ok tt) ->
    m' = set_ode (m_ode m ++ [(x_c, Some l)]) (set_x_0 (m_x_0 m ++ [x_c0]) (set_x (m_x m ++ [x_c]) m)).
Proof.
  intros x_c x_c0 l m m' H. apply include_state_ok in H. destruct H as [_ [Hk H]]. specialize (Hk x_c (or_introl eq_refl)).
  unfold include_equations in H. apply cbind_ok in H. destruct H as [m2 [[] [H2 H]]].
  unfold include_equations_alg in H2. apply cmodify_ok in H2. cbn [app flat_map] in H2. rewrite app_nil_r in H2. grd H.
  apply cbind_ok in H. destruct H as [m3 [[] [H3 H]]]. assert (m3 = m2) by (unfold cret in H3; congruence). subst m3.
  unfold include_equation_from_kwargs in H. grd H. grd H. apply cmodify_ok in H. rewrite H, H2. unfold with_states.
  cbn [map combine]. unfold dupdate, set_alg, set_ode, set_x_0, set_x. cbn. f_equal.
  clear - Hk. induction (m_ode m) as [|[a b] d IH]; cbn.
  - unfold sym_eqb. rewrite Nat.eqb_refl. reflexivity.
  - unfold sym_eqb. destruct (Nat.eqb_spec x_c a) as [->|N]; [exfalso; apply Hk; left; reflexivity|].
    unfold sym_eqb in IH. rewrite IH; [reflexivity|]. intros X. apply Hk. right. exact X.
Qed.

Lemma replaced_problem : forall u pol o o', ocp_replace_variable u pol o = (o', Ok tt) ->
    length u = length pol /\
    let sub := fun es => subst_vec es u pol in
    o' = set_o_model (replaced u pol (o_model o)) (set_o_h (sub (o_h o)) (set_o_g_eq (sub (o_g_eq o)) (set_o_g_ineq (sub (o_g_ineq o))
           (set_o_h_final (sub (o_h_final o)) (set_o_h_initial (sub (o_h_initial o)) (set_o_S (sub (o_S o))
           (set_o_V (sub (o_V o)) (set_o_L (sub (o_L o)) o)))))))).
Proof.
  intros u pol o o' H. unfold ocp_replace_variable in H. cbv zeta in H. grd H. do 8 modk H.
  apply on_model_ok in H. destruct H as [m' [Hm E']]. 
  match type of Hm with replace_variable _ _ (o_model ?x) = _ =>
    assert (Em : o_model x = o_model o) by (back; reflexivity); rewrite Em in Hm end.
  rewrite replace_variable_eq in Hm. destruct (Nat.eqb_spec (length u) (length pol)) as [L|]; [|discriminate].
  split; [exact L|]. cbv zeta. assert (m' = replaced u pol (o_model o)) by congruence. subst m'.
  rewrite E'. f_equal. rewrite E6; gfields. rewrite E5; gfields. rewrite E4; gfields. rewrite E3; gfields. rewrite E2; gfields.
  rewrite E1; gfields. rewrite E0; gfields. rewrite E; gfields. reflexivity.
Qed.

Lemma Forall2_map_r : forall (A : Type) (P : A -> A -> Prop) f l, (forall x, P x (f x)) -> Forall2 P l (map f l).
Proof. intros A P f l H. induction l; cbn; constructor; auto. Qed.

Theorem prepare_prepared : forall F points d x_c x_c0 first o o',
    respects F -> (0 < d)%nat -> length (points d) = d -> distinct (points d) ->
    direct_prepare points d x_c x_c0 first o = (o', Ok tt) ->
    prepared F (points d) x_c x_c0 o o'.
Proof.
  intros F points d x_c x_c0 first o o' HF Hd Hl Hdist H. unfold direct_prepare in H. grd H.
  assert (C : exists l v, o_L o = [l] /\ o_V o = [v]).
  { unfold pre_solve_check in G. destruct (o_L o) as [|l [|? ?]]; try discriminate. destruct (o_V o) as [|v [|? ?]]; try discriminate.
    exists l, v. auto. }
  clear G. destruct C as [l [v [El Ev]]].
  apply cbind_ok in H. destruct H as [o1 [[] [H1 H]]].
  assert (A : o1 = set_o_V [EBin OAdd v (EVar x_c)] (set_o_x_cost (Some [x_c])
     (set_o_x_max (o_x_max o ++ [PInf]) (set_o_x_min (o_x_min o ++ [if o_positive o then Fin 0%Q else NInf])
     (set_o_h_initial (o_h_initial o ++ [EBin OSub (EVar x_c0) (EVar x_c)]) (set_o_x_0 (o_x_0 o ++ [0%Q])
     (set_o_model (set_ode (m_ode (o_model o) ++ [(x_c, Some l)]) (set_x_0 (m_x_0 (o_model o) ++ [x_c0])
        (set_x (m_x (o_model o) ++ [x_c]) (o_model o)))) o))))))).
  { unfold add_cost_state in H1. apply cbind_ok in H1. destruct H1 as [o2 [[] [H2 H1]]].
    apply cset_ok in H1. destruct H1 as [w [W E1]]. unfold create_cost_state in H2.
    apply cbind_ok in H2. destruct H2 as [o3 [[] [H3 H2]]]. apply cmodify_ok in H2.
    unfold ocp_include_state in H3. cbv zeta in H3. grd H3. clear G. cbn [state_bound length] in H3.
    grd H3. grd H3. grd H3. clear G G0 G1. apply cbind_ok in H3. destruct H3 as [o4 [[] [H4 H3]]].
    apply on_model_ok in H4. destruct H4 as [m4 [H4 E4]]. rewrite El in H4. apply include_cost_state in H4.
    modk H3.
    apply cbind_ok in H3. destruct H3 as [o6 [[] [H6 H3]]]. apply cset_ok in H6. destruct H6 as [h6 [Z6 E6]].
    cbn in Z6. assert (h6 = o_h_initial o0 ++ [EBin OSub (EVar x_c0) (EVar x_c)]) by congruence. subst h6. clear Z6.
    apply cbind_ok in H3. destruct H3 as [o7 [[] [H7 H3]]]. apply cset_ok in H7. destruct H7 as [lo [Z7 E7]].
    apply cset_ok in H3. destruct H3 as [hi [Z8 E8]].
    unfold vertcat_cols in Z7, Z8. cbn [fst snd Nat.eqb] in Z7, Z8.
    assert (lo = o_x_min o6 ++ [if o_positive o then Fin 0%Q else NInf]) by congruence. subst lo.
    assert (hi = o_x_max o7 ++ [PInf]) by (cbn [pos_inf repeat] in Z8; congruence). subst hi.
    assert (Ew : w = [EBin OAdd v (EVar x_c)]).
    { assert (V2 : o_V o2 = [v]) by (rewrite H2; gfields; rewrite E8; gfields; rewrite E7; gfields; rewrite E6; gfields; rewrite E; gfields; rewrite E4; gfields; exact Ev).
      rewrite V2 in W. cbn in W. congruence. }
    subst w. rewrite E1, H2, E8, E7, E6, E, E4, H4. gfields. reflexivity. }
  clear H1. unfold parametrize_controls in H.
  destruct (create_variable_polynomial_approximation points (m_tau (o_model o1)) (length (m_u (o_model o1))) d first false) as [[pol par]|] eqn:Ep; [|discriminate].
  apply replaced_problem in H. destruct H as [Lp H]. cbv zeta in H.
  assert (Em : m_u (o_model o1) = m_u (o_model o) /\ m_tau (o_model o1) = m_tau (o_model o)) by (rewrite A; split; reflexivity).
  destruct Em as [Eu Et]. rewrite Eu, Et in *.
  pose proof (fun e => substituted F (o_model o) points d first e pol par HF Hd Hl Hdist Ep) as S.
  assert (Lpar : length par = (length (points d) * length (m_u (o_model o)))%nat /\ NoDup par).
  { rewrite w_C08_method_approximation in Ep by auto.
    destruct (poly_size points (m_tau (o_model o)) (length (m_u (o_model o))) d first Hd) as [P _].
    destruct (create_polynomial_approximation points (m_tau (o_model o)) (length (m_u (o_model o))) d first false) as [pol' par'].
    assert (par' = par) by congruence. subst. rewrite Hl. exact P. }
  assert (Epar : m_u_par (o_model o') = par) by (rewrite H; reflexivity).
  constructor; rewrite ?Epar.
  - rewrite H, A. cbv zeta. repeat split.
  - exact Lpar.
  - rewrite H, A. repeat split.
  - exists l. split; [exact El|]. rewrite H, A. gfields. unfold replaced, subst_ode. cbn -[substitute]. 
    apply Forall2_map_r. intros [s [e|]]; cbn; [split; [reflexivity | apply S] | auto].
  - rewrite H, A. gfields. unfold replaced. cbn -[substitute subst_vec]. unfold subst_vec.
    repeat match goal with |- _ /\ _ => split end; apply Forall2_map_r; intros; apply S.
  - exists v. eexists. split; [exact Ev|]. split; [rewrite H, A; gfields; reflexivity|].
    split; [apply S|]. rewrite H, A. gfields. apply Forall2_map_r. intros; apply S.
Qed.

(** Proofs about the preparation of the problems of nodes. *)
From Coq Require Import String Lqa Lia.
From Verif Require Import Base UtilModel ExprModel LagModel LagSpec SysModel NlpModel NlpSpec OcpModel OcpSpec.
From Verif Require Import SysSpec BaseProofs UtilProofs ExprProofs LagProofs SysProofs OcpProofs ResModel NetModel DalModel DalSpec DalProofs AugRelaxProofs.
From Verif Require Import ExoModel ExoSpec.
Local Open Scope list_scope.

(** ** Approximations *)

Lemma one_approximation : forall points tau degree first, good_points points degree ->
  let (pol, par) := create_polynomial_approximation points tau 1 degree first false in
  length pol = 1%nat /\ par = seq first degree /\
  is_worth points degree tau (nth 0 pol (EConst 0%Q)) (fun env k => env (first + k)%nat).
Proof.
  intros points tau degree first [H1 [H2 H3]].
  destruct (create_polynomial_approximation points tau 1 degree first false) as [pol par] eqn:E.
  assert (Hpar : par = seq first degree).
  { unfold create_polynomial_approximation in E. simpl andb in E. cbv iota zeta in E. injection E as _ <-.
    unfold vec_points, point_sym. clear.
    replace (seq first degree) with (map (fun j => (first + j)%nat) (seq 0 degree)).
    - induction (seq 0 degree) as [|j l IH]; [reflexivity|]. cbn [flat_map map seq app]. f_equal; [lia|exact IH].
    - revert first. induction degree as [|d IH]; intros first; [reflexivity|]. simpl. f_equal; [lia|].
      rewrite <- (IH (S first)), <- seq_shift, map_map. apply map_ext. intros j. lia. }
  assert (Hlen : length pol = 1%nat).
  { destruct (Nat.eq_dec degree 1) as [->|N].
    - pose proof (w_C08_degree_one_constant (fun _ _ => 0%Q) (fun _ => 0%Q) points tau 1 first false 0) as L. rewrite E in L. apply L.
    - unfold create_polynomial_approximation in E. destruct (Nat.eqb_spec degree 1) as [|_]; [contradiction|].
      simpl andb in E. cbv iota zeta in E. injection E as <- _. apply combination_length. lia. }
  split; [exact Hlen|]. split; [exact Hpar|]. intros F env k Hk Ht.
  assert (G : (eval F env (nth 0 pol (EConst 0%Q)) == env (nth (k * 1 + 0) par 0%nat))%Q).
  { destruct (Nat.eq_dec degree 1) as [->|N].
    - pose proof (w_C08_degree_one_constant F env points tau 1 first false 0) as L. rewrite E in L.
      destruct L as [_ [_ L]]. replace (k * 1 + 0)%nat with 0%nat by lia. apply L. lia.
    - pose proof (w_C08_parameter_layout F env points tau 1 degree first false 0 k) as L. cbv zeta in L. rewrite E in L.
      apply L; unfold interpolation_points; try assumption; lia. }
  rewrite G, Hpar. replace (k * 1 + 0)%nat with k by lia. rewrite seq_nth by exact Hk. reflexivity.
Qed.

Lemma approximation_spec : forall points tau degree n first, good_points points degree ->
  let (pol, par) := approximation points tau degree n first in
  length pol = n /\ par = seq first (n * degree) /\
  forall i, i < n -> is_worth points degree tau (nth i pol (EConst 0%Q)) (fun env k => env (first + i * degree + k)%nat).
Proof.
  intros points tau degree n first G. unfold approximation.
  assert (X : forall i0, let pol := flat_map (fun i => fst (create_polynomial_approximation points tau 1 degree (first + i * degree) false)) (seq i0 n) in
    length pol = n /\
    flat_map (fun i => snd (create_polynomial_approximation points tau 1 degree (first + i * degree) false)) (seq i0 n) = seq (first + i0 * degree) (n * degree) /\
    forall i, i < n -> is_worth points degree tau (nth i pol (EConst 0%Q)) (fun env k => env (first + (i0 + i) * degree + k)%nat)).
  { induction n as [|n IH]; intros i0; cbv zeta; [simpl; repeat split; intros; lia|]. cbn [seq flat_map].
    pose proof (one_approximation points tau degree (first + i0 * degree) G) as O.
    destruct (create_polynomial_approximation points tau 1 degree (first + i0 * degree) false) as [pol par]. cbn [fst snd].
    destruct O as [O1 [O2 O3]]. destruct (IH (S i0)) as [I1 [I2 I3]]. destruct pol as [|e [|e' pol]]; try discriminate. cbn [app length].
    split; [exact (f_equal S I1)|]. split.
    - rewrite I2, O2. change (S n * degree)%nat with (degree + n * degree)%nat. rewrite seq_app. f_equal. f_equal. simpl. lia.
    - intros [|i] Hi.
      + intros F env k Hk Ht. rewrite (O3 F env k Hk Ht). replace (i0 + 0)%nat with i0 by lia. reflexivity.
      + intros F env k Hk Ht. rewrite (I3 i ltac:(lia) F env k Hk Ht). replace (S i0 + i)%nat with (i0 + S i)%nat by lia. reflexivity. }
  destruct (X 0%nat) as [X1 [X2 X3]]. split; [exact X1|]. split; [rewrite X2; f_equal; lia|]. exact X3.
Qed.

Lemma sub_vec_nth : forall a b i, i < length a -> length a = length b ->
  nth i (sub_vec a b) (EConst 0%Q) = EBin OSub (nth i a (EConst 0%Q)) (nth i b (EConst 0%Q)).
Proof.
  induction a as [|x a IH]; intros [|y b] i Hi Hl; simpl in *; try lia. destruct i as [|i]; [reflexivity|].
  apply IH; lia.
Qed.
Lemma sub_vec_length : forall a b, length a = length b -> length (sub_vec a b) = length a.
Proof. intros a b H. unfold sub_vec. rewrite map_length, combine_length. lia. Qed.
Lemma nth_vars : forall v i, i < length v -> nth i (map EVar v) (EConst 0%Q) = EVar (nth i v 0%nat).
Proof. intros v i H. rewrite (nth_indep _ _ (EVar 0%nat)) by (rewrite map_length; exact H). apply (map_nth EVar). Qed.

(** ** One connection *)

Lemma connect_result : forall u y m m', connect u y false m = (m', Ok tt) ->
  length u = length y /\
  m_alg m' = m_alg m ++ sub_vec (map EVar u) y /\ m_y m' = m_y m ++ u /\ m_u m' = filter (not_in u) (m_u m) /\
  m_x m' = m_x m /\ m_ode m' = m_ode m /\ m_theta m' = m_theta m /\ m_tau m' = m_tau m /\ m_p m' = m_p m /\ m_t m' = m_t m.
Proof.
  intros u y m m' H. pose proof (mv_connect _ _ _ _ _ H) as V. unfold mvars in V. injection V as V1 V2 V3.
  unfold connect in H. unfold cbind at 1, cguard in H.
  destruct (Nat.eqb_spec (length u) (length y)) as [El|]; [|discriminate]. cbn [negb] in H.
  unfold include_equations, include_equations_alg, include_algebraic, remove_control, cbind, cmodify, cguard, cret, cset in H.
  cbn in H. rewrite app_nil_r in H.
  destruct (remove_variables_from_vector_by_indices _ _) as [ue|]; [|discriminate]. cbn in H.
  destruct (remove_syms u (m_u m)) as [uu|]; [|discriminate]. cbn in H.
  destruct (remove_syms u (m_u_par m)) as [up|]; [|discriminate]. cbn in H.
  assert (E : fst (m', @Ok unit tt) = m') by reflexivity. rewrite <- H in E. cbn in E.
  rewrite <- E in V3 |- *. cbn in V3 |- *. repeat split; try exact El. exact V3.
Qed.

Lemma ocp_connect_result : forall u y o o', ocp_connect u y false o = (o', Ok tt) ->
  connect u y false (o_model o) = (o_model o', Ok tt) /\ untouched o o'.
Proof.
  intros u y o o' H. split.
  - unfold ocp_connect in H. unfold cbind at 1, cguard in H. destruct (negb (length u =? length y)); [discriminate|].
    apply cbind_ok in H. destruct H as [o1 [[] [H1 H]]]. apply on_model_ok in H1. destruct H1 as [m' [Hm E0]].
    rewrite Hm. f_equal. subst o1. revert H.
    set (o1 := set_o_model m' o). assert (K : o_model o1 = m') by reflexivity. clearbody o1. intros H.
    assert (Kset : forall A (f : ocp -> res A) (set : A -> ocp -> ocp) a b, (forall v x, o_model (set v x) = o_model x) ->
              cset f set a = (b, Ok tt) -> o_model b = o_model a).
    { clear. intros A f set a b Hs H. unfold cset in H. destruct (f a); [|discriminate]. injection H as <-. apply Hs. }
    apply cbind_ok in H. destruct H as [o2 [[] [H2 H]]].
    assert (K2 : o_model o2 = o_model o1).
    { apply cbind_ok in H2. destruct H2 as [a1 [[] [G1 G2]]]. apply cbind_ok in G2. destruct G2 as [a2 [[] [G2 G3]]].
      apply Kset in G3; [|reflexivity]. apply Kset in G2; [|reflexivity]. rewrite G3, G2.
      destruct (o_u_guess o); [destruct (o_y_guess o)|];
        [apply Kset in G1; [exact G1|reflexivity]| |]; unfold cret in G1; congruence. }
    apply cbind_ok in H. destruct H as [o3 [[] [H3 H]]]. apply Kset in H3; [|reflexivity].
    apply cbind_ok in H. destruct H as [o4 [[] [H4 H]]]. apply Kset in H4; [|reflexivity].
    apply cbind_ok in H. destruct H as [o5 [[] [H5 H]]].
    assert (K5 : o_model o5 = o_model o4).
    { destruct (o_u_guess o); [apply Kset in H5; [exact H5|reflexivity]|unfold cret in H5; congruence]. }
    apply cbind_ok in H. destruct H as [o6 [[] [H6 H]]]. apply Kset in H6; [|reflexivity].
    apply Kset in H; [|reflexivity]. congruence.
  - pose proof (connect_stays u y false o) as S. rewrite H in S. exact S.
Qed.

(** ** Counting found symbols *)

Lemma find_single : forall v pre post, ~ In v pre -> ~ In v post ->
  map fst (filter (fun iw => sym_eqb (snd iw) v) (enumerate (pre ++ v :: post))) = [length pre].
Proof.
  intros v pre post H1 H2. unfold enumerate. rewrite app_length. cbn [length].
  replace (length pre + S (length post))%nat with (length pre + S (length post))%nat by lia.
  assert (Z : forall (l : list sym) k, ~ In v l -> filter (fun iw : nat * sym => sym_eqb (snd iw) v) (combine (seq k (length l)) l) = []).
  { induction l as [|w l IH]; intros k H; [reflexivity|]. cbn [length seq combine filter snd].
    destruct (sym_eqb w v) eqn:E; [apply Nat.eqb_eq in E; subst; exfalso; apply H; left; reflexivity|].
    apply IH. intros X. apply H. right. exact X. }
  assert (A : forall (l r : list sym) k, combine (seq k (length l + length r)) (l ++ r) =
     combine (seq k (length l)) l ++ combine (seq (k + length l) (length r)) r).
  { clear. induction l as [|w l IH]; intros r k; [simpl; rewrite Nat.add_0_r; reflexivity|].
    cbn [length seq combine app Nat.add]. rewrite IH. replace (S k + length l)%nat with (k + S (length l))%nat by lia. reflexivity. }
  change (S (length post)) with (length (v :: post)). rewrite A, filter_app, (Z pre 0%nat H1). cbn [app length seq combine filter snd].
  unfold sym_eqb at 1. rewrite Nat.eqb_refl. rewrite (Z post _ H2). reflexivity.
Qed.

Lemma find_appended : forall u pre, NoDup (pre ++ u) -> find_syms u (pre ++ u) = seq (length pre) (length u).
Proof.
  intros u pre H. unfold find_syms, find_variables_indices_in_vector.
  assert (X : forall done rest, u = done ++ rest ->
    flat_map (fun v => map fst (filter (fun iw => sym_eqb (snd iw) v) (enumerate (pre ++ u)))) rest =
    seq (length pre + length done) (length rest)).
  { intros done rest. revert done. induction rest as [|v rest IH]; intros done E; [reflexivity|].
    cbn [flat_map length seq]. rewrite (IH (done ++ [v])) by (rewrite E, <- app_assoc; reflexivity).
    assert (N : NoDup ((pre ++ done) ++ v :: rest)) by (rewrite <- app_assoc, <- E; exact H).
    replace (pre ++ u) with ((pre ++ done) ++ v :: rest) by (rewrite <- app_assoc, <- E; reflexivity).
    pose proof (NoDup_remove_2 _ _ _ N) as N2.
    rewrite find_single by (intros X; apply N2, in_or_app; auto).
    rewrite !app_length. cbn [app length]. replace (length pre + (length done + 1))%nat with (S (length pre + length done)) by lia. reflexivity. }
  rewrite (X [] u eq_refl). cbn [length]. rewrite Nat.add_0_r. reflexivity.
Qed.

(** ** Inputs *)

Definition inputs_bound (points : nat -> list Q) (degree : nat) (ins : list sym) (s s' : exo) : Prop :=
  let o := e_problem s in let o' := e_problem s' in
  let m := o_model o in let m' := o_model o' in
  (exists alg, couples points degree (m_tau m) (e_next s) ins [] alg [] /\ m_alg m' = m_alg m ++ alg) /\
  m_theta m' = m_theta m ++ seq (e_next s) (length ins * degree) /\
  e_next s' = (e_next s + length ins * degree)%nat /\
  m_y m' = m_y m ++ ins /\ m_u m' = filter (not_in ins) (m_u m) /\
  rl_alg (e_relax s') = rl_alg (e_relax s) ++ seq (length (m_alg m)) (length ins) /\
  rl_eq (e_relax s') = rl_eq (e_relax s) /\
  (NoDup (m_y m ++ ins) -> rl_y (e_relax s') = rl_y (e_relax s) ++ seq (length (m_y m)) (length ins)) /\
  o_g_eq o' = o_g_eq o /\ o_when_eq o' = o_when_eq o /\ kept_problem o o'.

Lemma kept_problem_refl : forall o, kept_problem o o.
Proof. intros o. unfold kept_problem. auto 30. Qed.
Lemma kept_problem_trans : forall a b c, kept_problem a b -> kept_problem b c -> kept_problem a c.
Proof. intros a b c H1 H2. unfold kept_problem in *. decompose [and] H1. decompose [and] H2. repeat split; congruence. Qed.

Lemma bind_input_bound : forall points degree y u s s', good_points points degree ->
  bind_input points degree false (y, u) s = (s', Ok tt) -> inputs_bound points degree u s s'.
Proof.
  intros points degree y u s s' G H. unfold bind_input in H.
  pose proof (approximation_spec points (m_tau (o_model (e_problem s))) degree (length y) (e_next s) G) as A.
  destruct (approximation points (m_tau (o_model (e_problem s))) degree (length y) (e_next s)) as [appr par].
  destruct A as [A1 [A2 A3]].
  apply cbind_ok in H. destruct H as [s1 [[] [H1 H]]]. unfold on_next, cmodify in H1.
  assert (E1 : s1 = mkExo (e_problem s) (e_next s + length y * degree) (e_relax s)) by congruence. subst s1. clear H1.
  apply cbind_ok in H. destruct H as [s2 [[] [H2 H]]]. unfold on_relax, cmodify in H2. cbn [e_problem e_next e_relax] in H2.
  match type of H2 with (?x, _) = _ => assert (E2 : s2 = x) by congruence end. subst s2. clear H2.
  apply cbind_ok in H. destruct H as [s3 [[] [H3 H]]]. unfold on_problem in H3. cbn [e_problem e_next e_relax] in H3.
  destruct (ocp_connect u appr false (e_problem s)) as [o1 r1] eqn:C.
  assert (Er : r1 = Ok tt) by congruence. subst r1.
  match type of H3 with (?x, _) = _ => assert (E3 : s3 = x) by congruence end. subst s3. clear H3.
  apply cbind_ok in H. destruct H as [s4 [[] [H4 H]]]. unfold on_problem, on_model, include_theta, cmodify in H4.
  cbn [e_problem e_next e_relax] in H4.
  match type of H4 with (?x, _) = _ => assert (E4 : s4 = x) by congruence end. subst s4. clear H4.
  unfold on_relax, cmodify in H. cbn [e_problem e_next e_relax rl_alg rl_y rl_eq] in H.
  match type of H with (?x, _) = _ => assert (E5 : s' = x) by congruence end. subst s'. clear H.
  apply ocp_connect_result in C. destruct C as [C U]. apply connect_result in C.
  destruct C as [L [Calg [Cy [Cu [Cx [Code [Cth [Ctau [Cp Ct]]]]]]]]].
  unfold untouched, problem_expressions in U. destruct U as [U0 U]. injection U0 as UL UV US Uh Uhi Uhf Ugeq Ugin.
  decompose [and] U. clear U.
  assert (Lu : length u = length y) by congruence.
  unfold inputs_bound. cbn -[seq find_syms couples kept_problem]. rewrite Lu. repeat match goal with |- _ /\ _ => split end; try congruence.
  - exists (sub_vec (map EVar u) appr). split; [|exact Calg]. unfold couples. cbn [length].
    split; [rewrite sub_vec_length; rewrite map_length; congruence|]. split; [reflexivity|]. split; [|intros; lia].
    intros i Hi F env k Hk Ht. rewrite sub_vec_nth; [|rewrite map_length; exact Hi|rewrite map_length; congruence].
    rewrite nth_vars by exact Hi. cbn [eval]. rewrite (A3 i ltac:(lia) F env k Hk Ht). reflexivity.
  - intros N. rewrite Cy. rewrite find_appended by exact N. rewrite Lu. reflexivity.
  - unfold kept_problem. cbn. repeat split; assumption.
Qed.

Lemma inputs_bound_nil : forall points degree s, inputs_bound points degree [] s s.
Proof.
  intros points degree s. unfold inputs_bound. cbn [length seq Nat.mul]. rewrite !app_nil_r, !Nat.add_0_r.
  repeat match goal with |- _ /\ _ => split end; try reflexivity; try apply kept_problem_refl.
  - exists []. split; [|rewrite app_nil_r; reflexivity]. unfold couples. repeat split; cbn; intros; lia.
  - symmetry. assert (X : forall l, filter (not_in []) l = l); [|apply X].
    induction l as [|v l IH]; [reflexivity|]. cbn. rewrite IH. reflexivity.
Qed.

Lemma not_in_app : forall a b v, not_in (a ++ b) v = not_in a v && not_in b v.
Proof.
  intros a b v. unfold not_in. destruct (in_dec Nat.eq_dec v a) as [Ha|Ha], (in_dec Nat.eq_dec v b) as [Hb|Hb],
    (in_dec Nat.eq_dec v (a ++ b)) as [Hab|Hab]; try reflexivity; rewrite in_app_iff in Hab; tauto.
Qed.
Lemma filter_not_in_app : forall a b l, filter (not_in (a ++ b)) l = filter (not_in b) (filter (not_in a) l).
Proof.
  intros a b l. induction l as [|v l IH]; [reflexivity|]. cbn [filter]. rewrite not_in_app.
  destruct (not_in a v); cbn [andb filter]; [|exact IH]. destruct (not_in b v); [f_equal|]; exact IH.
Qed.
Lemma not_in_existsb : forall l v, not_in l v = negb (existsb (Nat.eqb v) l).
Proof.
  intros l v. unfold not_in. destruct (in_dec Nat.eq_dec v l) as [H|H]; destruct (existsb (Nat.eqb v) l) eqn:E; try reflexivity.
  - assert (X : existsb (Nat.eqb v) l = true) by (apply existsb_exists; exists v; split; [exact H|apply Nat.eqb_refl]). congruence.
  - apply existsb_exists in E. destruct E as [w [Hw Ew]]. apply Nat.eqb_eq in Ew. subst. contradiction.
Qed.

Lemma inputs_bound_app : forall points degree a b s1 s2 s3,
  inputs_bound points degree a s1 s2 -> inputs_bound points degree b s2 s3 -> inputs_bound points degree (a ++ b) s1 s3.
Proof.
  intros points degree a b s1 s2 s3 H K. unfold inputs_bound in *.
  destruct H as [[alg1 [[L1 [_ [W1 _]]] G1]] [T1 [N1 [Y1 [U1 [A1 [E1 [R1 [Q1 [V1 K1]]]]]]]]]].
  destruct K as [[alg2 [[L2 [_ [W2 _]]] G2]] [T2 [N2 [Y2 [U2 [A2 [E2 [R2 [Q2 [V2 K2]]]]]]]]]].
  assert (Etau : m_tau (o_model (e_problem s2)) = m_tau (o_model (e_problem s1))) by apply K1.
  assert (Esum : (length (a ++ b) * degree = length a * degree + length b * degree)%nat) by (rewrite app_length; lia).
  repeat match goal with |- _ /\ _ => split end; try congruence.
  - exists (alg1 ++ alg2). split; [|rewrite G2, G1, app_assoc; reflexivity]. unfold couples. cbn [length].
    split; [rewrite !app_length; congruence|]. split; [reflexivity|]. split; [|intros; lia].
    intros i Hi F env k Hk Ht. rewrite app_length in Hi. destruct (Nat.lt_ge_cases i (length a)) as [Hlt|Hge].
    + rewrite !app_nth1 by congruence. apply W1; assumption.
    + rewrite !app_nth2 by lia. rewrite L1. rewrite <- Etau in Ht.
      rewrite (W2 (i - length a)%nat ltac:(lia) F env k Hk Ht). rewrite N1.
      replace (e_next s1 + length a * degree + (i - length a) * degree + k)%nat with (e_next s1 + i * degree + k)%nat by nia. reflexivity.
  - rewrite T2, T1, Esum, seq_app, N1, app_assoc. reflexivity.
  - rewrite N2, N1, Esum. lia.
  - rewrite Y2, Y1, app_assoc. reflexivity.
  - rewrite U2, U1, filter_not_in_app. reflexivity.
  - rewrite A2, A1, G1, !app_length, L1, seq_app, app_assoc. reflexivity.
  - intros N. rewrite R2, R1, Y1, !app_length, seq_app, app_assoc; [reflexivity| |].
    + rewrite app_assoc in N. apply NoDup_app_l in N. exact N.
    + rewrite Y1, <- app_assoc. exact N.
  - eapply kept_problem_trans; eassumption.
Qed.

Lemma inputs_all : forall points degree preds s s', good_points points degree ->
  run_all (bind_input points degree false) preds s = (s', Ok tt) -> inputs_bound points degree (fed_inputs preds) s s'.
Proof.
  intros points degree preds. induction preds as [|[y u] preds IH]; intros s s' G H.
  - cbn in H. unfold cret in H. assert (s' = s) by congruence. subst. apply inputs_bound_nil.
  - cbn [run_all] in H. apply cbind_ok in H. destruct H as [s1 [[] [H1 H]]].
    cbn [fed_inputs flat_map snd]. eapply inputs_bound_app; [apply (bind_input_bound _ _ _ _ _ _ G H1)|apply IH; assumption].
Qed.

(** ** Outputs *)

Definition outputs_bound (points : nat -> list Q) (degree : nat) (outs : list sym) (s s' : exo) : Prop :=
  let o := e_problem s in let m := o_model o in
  exists eqs,
    couples points degree (m_tau m) (e_next s) [] outs [] eqs /\
    e_problem s' = set_o_model (set_theta (m_theta m ++ seq (e_next s) (length outs * degree)) m)
                     (set_o_when_eq (o_when_eq o ++ repeat "default"%string (length outs)) (set_o_g_eq (o_g_eq o ++ eqs) o)) /\
    e_next s' = (e_next s + length outs * degree)%nat /\
    rl_alg (e_relax s') = rl_alg (e_relax s) /\ rl_y (e_relax s') = rl_y (e_relax s) /\
    rl_eq (e_relax s') = rl_eq (e_relax s) ++ seq (length (o_g_eq o)) (length outs).

Lemma bind_output_bound : forall points degree y u s s', good_points points degree ->
  bind_output points degree false (y, u) s = (s', Ok tt) -> outputs_bound points degree y s s'.
Proof.
  intros points degree y u s s' G H. unfold bind_output in H.
  pose proof (approximation_spec points (m_tau (o_model (e_problem s))) degree (length u) (e_next s) G) as A.
  destruct (approximation points (m_tau (o_model (e_problem s))) degree (length u) (e_next s)) as [appr par].
  destruct A as [A1 [A2 A3]].
  apply cbind_ok in H. destruct H as [s1 [[] [H1 H]]]. unfold on_next, cmodify in H1.
  match type of H1 with (?x, _) = _ => assert (E1 : s1 = x) by congruence end. subst s1. clear H1.
  apply cbind_ok in H. destruct H as [s2 [[] [H2 H]]]. unfold on_relax, cmodify in H2. cbn [e_problem e_next e_relax] in H2.
  match type of H2 with (?x, _) = _ => assert (E2 : s2 = x) by congruence end. subst s2. clear H2.
  apply cbind_ok in H. destruct H as [s3 [[] [H3 H]]]. unfold cguard in H3.
  destruct (Nat.eqb_spec (length u) (length y)) as [L|]; [|discriminate]. cbn [negb] in H3.
  match type of H3 with (?x, _) = _ => assert (E3 : s3 = x) by congruence end. subst s3. clear H3.
  apply cbind_ok in H. destruct H as [s4 [[] [H4 H]]]. unfold on_problem, include_time_equality, cbind, cmodify in H4.
  cbn [e_problem e_next e_relax] in H4.
  match type of H4 with (?x, _) = _ => assert (E4 : s4 = x) by congruence end. subst s4. clear H4.
  unfold on_problem, on_model, include_theta, cmodify in H. cbn [e_problem e_next e_relax] in H.
  match type of H with (?x, _) = _ => assert (E5 : s' = x) by congruence end. subst s'. clear H.
  assert (Ls : length (sub_vec appr (map EVar y)) = length y).
  { rewrite sub_vec_length; [congruence|]. rewrite map_length. congruence. }
  exists (sub_vec appr (map EVar y)). unfold outputs_bound. cbn [e_problem e_next e_relax rl_alg rl_y rl_eq].
  split.
  { unfold couples. cbn [length]. split; [reflexivity|]. split; [exact Ls|]. split; [intros; lia|].
    intros i Hi F env k Hk Ht. rewrite sub_vec_nth; [|congruence|rewrite map_length; congruence].
    rewrite nth_vars by exact Hi. cbn [eval]. rewrite (A3 i ltac:(lia) F env k Hk Ht). reflexivity. }
  split; [|rewrite L; auto].
  apply ocp_ext; try reflexivity.
  - cbn. rewrite A2, L. reflexivity.
  - cbn. rewrite Ls. reflexivity.
Qed.

Lemma outputs_bound_nil : forall points degree s, outputs_bound points degree [] s s.
Proof.
  intros points degree s. exists []. cbn [length seq Nat.mul repeat]. rewrite !app_nil_r, !Nat.add_0_r.
  repeat match goal with |- _ /\ _ => split end; try reflexivity.
  - unfold couples. repeat split; cbn; intros; lia.
  - apply ocp_ext; try reflexivity. cbn. destruct (o_model (e_problem s)); reflexivity.
Qed.

Lemma outputs_bound_app : forall points degree a b s1 s2 s3,
  outputs_bound points degree a s1 s2 -> outputs_bound points degree b s2 s3 -> outputs_bound points degree (a ++ b) s1 s3.
Proof.
  intros points degree a b s1 s2 s3 [e1 [[_ [L1 [_ W1]]] [P1 [N1 [A1 [Y1 R1]]]]]] [e2 [[_ [L2 [_ W2]]] [P2 [N2 [A2 [Y2 R2]]]]]].
  assert (Esum : (length (a ++ b) * degree = length a * degree + length b * degree)%nat) by (rewrite app_length; lia).
  rewrite P1 in P2, R2, W2. cbn [o_model o_g_eq set_o_model set_o_when_eq set_o_g_eq m_tau set_theta] in W2, R2.
  exists (e1 ++ e2). repeat match goal with |- _ /\ _ => split end; try congruence.
  - unfold couples. cbn [length]. split; [reflexivity|]. split; [rewrite !app_length; congruence|]. split; [intros; lia|].
    intros i Hi F env k Hk Ht. rewrite app_length in Hi. destruct (Nat.lt_ge_cases i (length a)) as [Hlt|Hge].
    + rewrite !app_nth1 by congruence. apply W1; assumption.
    + rewrite !app_nth2 by lia. rewrite L1.
      rewrite (W2 (i - length a)%nat ltac:(lia) F env k Hk Ht). rewrite N1. cbn [length Nat.add].
      replace (e_next s1 + length a * degree + (i - length a) * degree + k)%nat with (e_next s1 + i * degree + k)%nat by nia. reflexivity.
  - rewrite P2. apply ocp_ext; try reflexivity.
    + cbn. rewrite Esum, seq_app, N1, app_assoc. reflexivity.
    + cbn. rewrite app_assoc. reflexivity.
    + cbn. rewrite app_length, repeat_app, app_assoc. reflexivity.
  - rewrite N2, N1, Esum. lia.
  - rewrite R2, R1, !app_length, L1, seq_app, app_assoc. reflexivity.
Qed.

Lemma outputs_all : forall points degree succs s s', good_points points degree ->
  run_all (bind_output points degree false) succs s = (s', Ok tt) -> outputs_bound points degree (used_outputs succs) s s'.
Proof.
  intros points degree succs. induction succs as [|[y u] succs IH]; intros s s' G H.
  - cbn in H. unfold cret in H. assert (s' = s) by congruence. subst. apply outputs_bound_nil.
  - cbn [run_all] in H. apply cbind_ok in H. destruct H as [s1 [[] [H1 H]]].
    cbn [used_outputs flat_map fst]. eapply outputs_bound_app; [apply (bind_output_bound _ _ _ _ _ _ G H1)|apply IH; assumption].
Qed.

Theorem w_C77_prepared : forall points degree preds succs s s', good_points points degree ->
  include_exogenous points degree false preds succs s = (s', Ok tt) ->
  prepared points degree (fed_inputs preds) (used_outputs succs) s s' /\ kept_problem (e_problem s) (e_problem s').
Proof.
  intros points degree preds succs s s' G H. unfold include_exogenous in H.
  apply cbind_ok in H. destruct H as [s1 [[] [H1 H2]]].
  apply inputs_all in H1; [|exact G]. apply outputs_all in H2; [|exact G].
  set (ins := fed_inputs preds) in *. set (outs := used_outputs succs) in *. clearbody ins outs.
  destruct H1 as [[alg1 [[L1 [_ [W1 _]]] G1]] [T1 [N1 [Y1 [U1 [A1 [E1 [R1 [Q1 [V1 K1]]]]]]]]]].
  destruct H2 as [eqs [[_ [L2 [_ W2]]] [P2 [N2 [A2 [Y2 R2]]]]]].
  assert (Etau : m_tau (o_model (e_problem s1)) = m_tau (o_model (e_problem s))) by apply K1.
  split.
  - unfold prepared. rewrite P2. cbn [o_model o_g_eq o_when_eq set_o_model set_o_when_eq set_o_g_eq m_tau set_theta m_alg m_theta m_y m_u].
    repeat match goal with |- _ /\ _ => split end.
    + exists alg1, eqs. split; [|split; [exact G1|split; congruence]]. split; [exact L1|]. split; [exact L2|]. split; [exact W1|].
      intros i Hi F env k Hk Ht. rewrite <- Etau in Ht. rewrite (W2 i Hi F env k Hk Ht). rewrite N1. cbn [length Nat.add].
      replace (e_next s + length ins * degree + i * degree + k)%nat with (e_next s + (length ins + i) * degree + k)%nat by nia. reflexivity.
    + rewrite T1, N1, Nat.mul_add_distr_r, seq_app, app_assoc. reflexivity.
    + rewrite N2, N1. lia.
    + exact Y1.
    + rewrite U1. apply filter_ext. intros v. apply not_in_existsb.
    + congruence.
    + rewrite R2, E1, Q1. reflexivity.
    + intros N. rewrite Y2. apply R1, N.
  - eapply kept_problem_trans; [exact K1|]. rewrite P2. unfold kept_problem. cbn. auto 30.
Qed.

(** ** What the parameters stand for *)

Lemma nth_flat_map_uniform : forall {A B} (g : A -> list B) (d : nat) l i k a0 b0,
  (forall a, In a l -> length (g a) = d) -> i < length l -> k < d ->
  nth (i * d + k) (flat_map g l) b0 = nth k (g (nth i l a0)) b0.
Proof.
  intros A B g d l. induction l as [|x l IH]; intros i k a0 b0 H Hi Hk; [cbn in Hi; lia|].
  cbn [flat_map]. destruct i as [|i].
  - cbn [Nat.mul Nat.add nth]. rewrite app_nth1; [reflexivity|]. rewrite H; [exact Hk|left; reflexivity].
  - rewrite app_nth2; rewrite (H x (or_introl eq_refl)); [|nia].
    replace (S i * d + k - d)%nat with (i * d + k)%nat by nia. cbn [nth length] in *. apply IH; [|lia|exact Hk].
    intros a Ha. apply H. right. exact Ha.
Qed.

Lemma length_flat_map_uniform : forall {A B} (g : A -> list B) (d : nat) l,
  (forall a, In a l -> length (g a) = d) -> length (flat_map g l) = (length l * d)%nat.
Proof.
  intros A B g d l. induction l as [|x l IH]; intros H; [reflexivity|]. cbn [flat_map length Nat.mul].
  rewrite app_length, (H x (or_introl eq_refl)), IH; [reflexivity|]. intros a Ha. apply H. right. exact Ha.
Qed.

Definition index_of (v : sym) (vars : list sym) : nat := hd 0%nat (find_syms [v] vars).
Definition far_list (opts : dal_options) (net : dnet) (last : results) (el : nat) (f : far_end) : list Q :=
  match f with
  | FarOutput b v => sent (do_degree opts) (dn_y_guess net b) (option_map (fun r => w_y (nr_data r)) (result_of last b)) (index_of v (dn_y net b)) el
  | FarInput b v => sent (do_degree opts) (dn_u_guess net b) (option_map (fun r => w_u (nr_data r)) (result_of last b)) (index_of v (dn_u net b)) el
  end.

Lemma find_one : forall v vars, In v vars -> NoDup vars -> exists i, find_syms [v] vars = [i] /\ nth_error vars i = Some v.
Proof.
  intros v vars Hi Hn. pose proof (find_indices_members sym_eqb Nat.eqb_eq [v] vars Hn) as M.
  change (find_variables_indices_in_vector sym_eqb [v] vars) with (find_syms [v] vars) in M.
  assert (E : map (nth_error vars) (find_syms [v] vars) = [Some v]) by (apply M; intros w [<-|[]]; exact Hi).
  destruct (find_syms [v] vars) as [|i [|]]; try discriminate. exists i. split; [reflexivity|]. cbn in E. congruence.
Qed.

Lemma find_each : forall vs vars, NoDup vars -> (forall v, In v vs -> In v vars) ->
  find_syms vs vars = map (fun v => index_of v vars) vs.
Proof.
  intros vs vars Hn H. unfold find_syms, find_variables_indices_in_vector. rewrite flat_map_concat_map.
  replace (map (fun v => map fst (filter (fun iw => sym_eqb (snd iw) v) (enumerate vars))) vs)
    with (map (fun i => [i]) (map (fun v => index_of v vars) vs)).
  - generalize (map (fun v => index_of v vars) vs). intros l. induction l as [|i l IH]; [reflexivity|]. cbn. rewrite IH. reflexivity.
  - rewrite map_map. apply map_ext_in. intros v Hv. destruct (find_one v vars (H v Hv) Hn) as [i [E _]].
    unfold index_of. rewrite E. cbn. unfold find_syms, find_variables_indices_in_vector in E. cbn in E. rewrite app_nil_r in E. congruence.
Qed.

Lemma flat_map_map : forall {A B C} (f : A -> B) (g : B -> list C) l, flat_map g (map f l) = flat_map (fun a => g (f a)) l.
Proof. intros A B C f g l. induction l as [|a l IH]; [reflexivity|]. cbn. rewrite IH. reflexivity. Qed.
Lemma flat_map_flat_map : forall {A B C} (f : A -> list B) (g : B -> list C) l, flat_map g (flat_map f l) = flat_map (fun a => flat_map g (f a)) l.
Proof. intros A B C f g l. induction l as [|a l IH]; [reflexivity|]. cbn. rewrite flat_map_app, IH. reflexivity. Qed.
Lemma flat_map_ext_in : forall {A B} (f g : A -> list B) l, (forall a, In a l -> f a = g a) -> flat_map f l = flat_map g l.
Proof. intros A B f g l H. induction l as [|a l IH]; [reflexivity|]. cbn. rewrite (H a (or_introl eq_refl)), IH; [reflexivity|]. intros b Hb. apply H. right. exact Hb. Qed.

Lemma received_ends : forall opts net last a el, Forall (far_known net) (far_ends net a) ->
  received opts net last a el = flat_map (far_list opts net last el) (far_ends net a).
Proof.
  intros opts net last a el K. unfold far_ends in *. apply Forall_app in K. destruct K as [K1 K2].
  unfold received. rewrite flat_map_app, !flat_map_flat_map. f_equal; apply flat_map_ext_in; intros [b [y u]] Hb; cbn [fst snd]; rewrite flat_map_map.
  - rewrite Forall_forall in K1.
    assert (X : forall v, In v y -> far_known net (FarOutput b v)).
    { intros v Hv. apply K1. apply in_flat_map. exists (b, (y, u)). split; [exact Hb|]. cbn. apply in_map, Hv. }
    destruct y as [|v0 y']; [reflexivity|]. destruct (X v0 (or_introl eq_refl)) as [_ N].
    rewrite find_each; [|exact N|intros v Hv; apply (X v Hv)]. rewrite flat_map_map. reflexivity.
  - rewrite Forall_forall in K2.
    assert (X : forall v, In v u -> far_known net (FarInput b v)).
    { intros v Hv. apply K2. apply in_flat_map. exists (b, (y, u)). split; [exact Hb|]. cbn. apply in_map, Hv. }
    destruct u as [|v0 u']; [reflexivity|]. destruct (X v0 (or_introl eq_refl)) as [_ N].
    rewrite find_each; [|exact N|intros v Hv; apply (X v Hv)]. rewrite flat_map_map. reflexivity.
Qed.

Lemma far_list_length : forall opts net last el f, full_results opts last -> el < do_elements opts ->
  length (far_list opts net last el f) = do_degree opts.
Proof.
  intros opts net last el f H He. destruct f as [b v|b v]; cbn [far_list]; unfold sent;
    destruct (result_of last b) as [r|] eqn:E; cbn [option_map]; try apply repeat_length; rewrite map_length; apply (H b r el E He).
Qed.

Lemma nth_map_in : forall {A B} (f : A -> B) l k a0 b0, k < length l -> nth k (map f l) b0 = f (nth k l a0).
Proof. intros A B f l k a0 b0 H. rewrite (nth_indep _ b0 (f a0)) by (rewrite map_length; exact H). apply map_nth. Qed.
Lemma nth_repeat_in : forall {A} (x : A) n k d, k < n -> nth k (repeat x n) d = x.
Proof. intros A x n. induction n as [|n IH]; intros [|k] d H; cbn; try lia; [reflexivity|apply IH; lia]. Qed.

Lemma far_list_value : forall opts net last el f k, full_results opts last -> el < do_elements opts -> k < do_degree opts ->
  far_known net f -> far_value net last el k f (nth k (far_list opts net last el f) 0%Q).
Proof.
  intros opts net last el f k H He Hk K. destruct f as [b v|b v]; destruct K as [Ki Kn]; destruct (find_one v _ Ki Kn) as [i [Ei Hi]];
    cbn [far_list far_value]; unfold index_of; rewrite Ei; cbn [hd]; exists i; (split; [split; assumption|]); unfold sent;
    destruct (result_of last b) as [r|] eqn:E; cbn [option_map]; try (rewrite nth_repeat_in by exact Hk; reflexivity);
    apply (nth_map_in (fun v => nth i v 0%Q)); rewrite (proj1 (H b r el E He)) || rewrite (proj2 (H b r el E He)); exact Hk.
Qed.

(** The connections join vectors of one size. *)
Lemma input_sizes : forall points degree y u s s', bind_input points degree false (y, u) s = (s', Ok tt) ->
  good_points points degree -> length u = length y.
Proof.
  intros points degree y u s s' H G. unfold bind_input in H.
  pose proof (approximation_spec points (m_tau (o_model (e_problem s))) degree (length y) (e_next s) G) as A.
  destruct (approximation points (m_tau (o_model (e_problem s))) degree (length y) (e_next s)) as [appr par]. destruct A as [A1 _].
  apply cbind_ok in H. destruct H as [s1 [[] [H1 H]]]. apply cbind_ok in H. destruct H as [s2 [[] [H2 H]]].
  apply cbind_ok in H. destruct H as [s3 [[] [H3 H]]]. unfold on_problem in H3.
  destruct (ocp_connect u appr false (e_problem s2)) as [o1 r1] eqn:C. assert (r1 = Ok tt) by congruence. subst r1.
  apply ocp_connect_result in C. destruct C as [C _]. apply connect_result in C. destruct C as [L _]. congruence.
Qed.
Lemma inputs_sizes : forall points degree preds s s', good_points points degree ->
  run_all (bind_input points degree false) preds s = (s', Ok tt) -> Forall (fun c => length (snd c) = length (fst c)) preds.
Proof.
  intros points degree preds. induction preds as [|[y u] preds IH]; intros s s' G H; [constructor|].
  cbn [run_all] in H. apply cbind_ok in H. destruct H as [s1 [[] [H1 H]]]. constructor; [apply (input_sizes _ _ _ _ _ _ H1 G)|apply (IH _ _ G H)].
Qed.

Lemma far_ends_pred_length : forall (preds : list (addr * conn)), Forall (fun c => length (snd c) = length (fst c)) (map snd preds) ->
  length (flat_map (fun pc => map (FarOutput (fst pc)) (fst (snd pc))) preds) = length (fed_inputs (map snd preds)).
Proof.
  induction preds as [|[b [y u]] preds IH]; intros H; [reflexivity|]. cbn [map flat_map fed_inputs fst snd]. inversion H; subst.
  rewrite !app_length, map_length, IH by assumption. cbn in *. unfold fed_inputs. lia.
Qed.

Lemma output_sizes : forall points degree y u s s', bind_output points degree false (y, u) s = (s', Ok tt) -> length u = length y.
Proof.
  intros points degree y u s s' H. unfold bind_output in H.
  destruct (approximation points (m_tau (o_model (e_problem s))) degree (length u) (e_next s)) as [appr par].
  apply cbind_ok in H. destruct H as [s1 [[] [H1 H]]]. apply cbind_ok in H. destruct H as [s2 [[] [H2 H]]].
  apply cbind_ok in H. destruct H as [s3 [[] [H3 H]]]. unfold cguard in H3. destruct (Nat.eqb_spec (length u) (length y)) as [L|]; [exact L|discriminate].
Qed.
Lemma outputs_sizes : forall points degree succs s s',
  run_all (bind_output points degree false) succs s = (s', Ok tt) -> Forall (fun c => length (snd c) = length (fst c)) succs.
Proof.
  intros points degree succs. induction succs as [|[y u] succs IH]; intros s s' H; [constructor|].
  cbn [run_all] in H. apply cbind_ok in H. destruct H as [s1 [[] [H1 H]]]. constructor; [apply (output_sizes _ _ _ _ _ _ H1)|apply (IH _ _ H)].
Qed.
Lemma far_ends_succ_length : forall (succs : list (addr * conn)), Forall (fun c => length (snd c) = length (fst c)) (map snd succs) ->
  length (flat_map (fun sc => map (FarInput (fst sc)) (snd (snd sc))) succs) = length (used_outputs (map snd succs)).
Proof.
  induction succs as [|[b [y u]] succs IH]; intros H; [reflexivity|]. cbn [map flat_map used_outputs fst snd]. inversion H; subst.
  rewrite !app_length, map_length, IH by assumption. cbn in *. unfold used_outputs. lia.
Qed.

Lemma Forall2_at : forall {A B} (P : A -> B -> Prop) l m j a b, Forall2 P l m -> j < length l -> P (nth j l a) (nth j m b).
Proof.
  intros A B P l m j a b H. revert j. induction H as [|x y l m Hxy H IH]; intros j Hj; [cbn in Hj; lia|].
  destruct j as [|j]; [exact Hxy|]. apply IH. cbn in Hj. lia.
Qed.

Theorem w_C77_meaning : forall points opts net last a s s' el,
  good_points points (do_degree opts) ->
  include_exogenous points (do_degree opts) false (map snd (dn_pred net a)) (map snd (dn_succ net a)) s = (s', Ok tt) ->
  Forall (far_known net) (far_ends net a) -> full_results opts last -> el < do_elements opts ->
  let ins := fed_inputs (map snd (dn_pred net a)) in
  let outs := used_outputs (map snd (dn_succ net a)) in
  let m := o_model (e_problem s) in let m' := o_model (e_problem s') in
  length (m_theta m') = (length (m_theta m) + length (received opts net last a el))%nat /\
  exists alg eqs,
    m_alg m' = m_alg m ++ alg /\ length alg = length ins /\
    o_g_eq (e_problem s') = o_g_eq (e_problem s) ++ eqs /\ length eqs = length outs /\
    forall F env k, m_theta m = [] -> takes env (m_theta m') (received opts net last a el) ->
      k < do_degree opts -> (env (m_tau m) == nth k (points (do_degree opts)) 0)%Q ->
      (forall i, i < length ins -> exists f q,
         nth_error (far_ends net a) i = Some f /\ far_value net last el k f q /\
         (eval F env (nth i alg (EConst 0%Q)) == env (nth i ins 0%nat) - q)%Q) /\
      (forall i, i < length outs -> exists f q,
         nth_error (far_ends net a) (length ins + i) = Some f /\ far_value net last el k f q /\
         (eval F env (nth i eqs (EConst 0%Q)) == q - env (nth i outs 0%nat))%Q).
Proof.
  intros points opts net last a s s' el G H K R He ins outs m m'.
  assert (Hsz : length (far_ends net a) = (length ins + length outs)%nat).
  { pose proof H as H0. unfold include_exogenous in H0. apply cbind_ok in H0. destruct H0 as [s1 [[] [H1 H2]]].
    apply inputs_sizes in H1; [|exact G]. apply outputs_sizes in H2.
    unfold far_ends. rewrite app_length, far_ends_pred_length, far_ends_succ_length by assumption. reflexivity. }
  apply w_C77_prepared in H; [|exact G]. destruct H as [[[alg [eqs [[La [Le [Wa We]]] [Ea [Eg _]]]]] [Et _]] _].
  fold ins in La, Wa, We, Et. fold outs in Le, We, Et.
  fold m in Ea, Et, Wa, We. fold m' in Ea, Et.
  assert (Lr : length (received opts net last a el) = ((length ins + length outs) * do_degree opts)%nat).
  { rewrite received_ends by exact K. rewrite (length_flat_map_uniform _ (do_degree opts)); [congruence|].
    intros f _. apply far_list_length; assumption. }
  split; [rewrite Et, app_length, seq_length, Lr; reflexivity|].
  exists alg, eqs. split; [exact Ea|]. split; [exact La|]. split; [exact Eg|]. split; [exact Le|].
  intros F env k Hth T Hk Ht. rewrite Et, Hth in T. cbn [app] in T.
  assert (V : forall i, i < length ins + length outs -> exists f,
    nth_error (far_ends net a) i = Some f /\ far_value net last el k f (nth (i * do_degree opts + k) (received opts net last a el) 0%Q) /\
    (env (e_next s + i * do_degree opts + k)%nat == nth (i * do_degree opts + k) (received opts net last a el) 0)%Q).
  { intros i Hi. destruct (nth_error (far_ends net a) i) as [f|] eqn:Ef; [|apply nth_error_None in Ef; lia].
    exists f. split; [reflexivity|]. split.
    - rewrite received_ends by exact K.
      rewrite (nth_flat_map_uniform _ (do_degree opts) _ i k f 0%Q); [|intros; apply far_list_length; assumption|lia|exact Hk].
      rewrite (nth_error_nth _ _ f Ef). apply far_list_value; try assumption.
      rewrite Forall_forall in K. apply K. eapply nth_error_In, Ef.
    - pose proof (Forall2_at _ _ _ (i * do_degree opts + k)%nat 0%nat 0%Q T) as X. rewrite seq_length, seq_nth in X by nia.
      rewrite Nat.add_assoc in X. apply X. nia. }
  split.
  - intros i Hi. destruct (V i ltac:(lia)) as [f [V1 [V2 V3]]]. exists f, (nth (i * do_degree opts + k) (received opts net last a el) 0%Q).
    split; [exact V1|]. split; [exact V2|]. rewrite (Wa i Hi F env k Hk Ht), V3. reflexivity.
  - intros i Hi. destruct (V (length ins + i)%nat ltac:(lia)) as [f [V1 [V2 V3]]].
    exists f, (nth ((length ins + i) * do_degree opts + k) (received opts net last a el) 0%Q).
    split; [exact V1|]. split; [exact V2|]. rewrite (We i Hi F env k Hk Ht), V3. reflexivity.
Qed.

(** ** Once more *)

Lemma find_none : forall u l, (forall v, In v u -> ~ In v l) -> find_syms u l = [].
Proof. intros u l H. apply (find_indices_empty sym_eqb Nat.eqb_eq). exact H. Qed.

Lemma ocp_connect_gone : forall u y o, length u = length y -> (forall v, In v u -> ~ In v (m_u (o_model o))) ->
  snd (ocp_connect u y false o) = Raise ValueError.
Proof.
  intros u y o L N. unfold ocp_connect. unfold cbind at 1, cguard. rewrite L, Nat.eqb_refl. cbn [negb].
  assert (C : snd (connect u y false (o_model o)) = Raise ValueError).
  { unfold connect. unfold cbind at 1, cguard. rewrite L, Nat.eqb_refl. cbn [negb].
    unfold include_equations, include_equations_alg, include_algebraic, remove_control, cbind, cmodify, cguard, cret, cset.
    cbn -[find_syms remove_syms remove_variables_from_vector_by_indices].
    rewrite (find_none u _ N). cbn -[find_syms remove_syms].
    unfold remove_syms, remove_variables_from_vector.
    change (find_variables_indices_in_vector sym_eqb u (m_u (o_model o))) with (find_syms u (m_u (o_model o))).
    rewrite (find_none u _ N). reflexivity. }
  unfold on_model at 1. unfold cbind at 1.
  destruct (connect u y false (o_model o)) as [m' r]. cbn in C. subst r. reflexivity.
Qed.

Theorem w_C77_again : forall points degree y u preds succs s s' next relax,
  good_points points degree ->
  include_exogenous points degree false ((y, u) :: preds) succs s = (s', Ok tt) ->
  snd (include_exogenous points degree false ((y, u) :: preds) succs (mkExo (e_problem s') next relax)) = Raise ValueError.
Proof.
  intros points degree y u preds succs s s' next relax G H. pose proof H as H0.
  unfold include_exogenous in H0. apply cbind_ok in H0. destruct H0 as [s1 [[] [H1 _]]].
  apply inputs_sizes in H1; [|exact G]. inversion H1 as [|? ? L _]; subst. cbn [fst snd] in L.
  apply w_C77_prepared in H; [|exact G]. destruct H as [[_ [_ [_ [_ [Hu _]]]]] _].
  assert (N : forall v, In v u -> ~ In v (m_u (o_model (e_problem s')))).
  { intros v Hv X. rewrite Hu in X. apply filter_In in X. destruct X as [_ X]. apply negb_true_iff in X.
    assert (Y : existsb (Nat.eqb v) (fed_inputs ((y, u) :: preds)) = true); [|congruence].
    apply existsb_exists. exists v. split; [|apply Nat.eqb_refl]. cbn [fed_inputs flat_map snd]. apply in_or_app. left. exact Hv. }
  assert (B : snd (bind_input points degree false (y, u) (mkExo (e_problem s') next relax)) = Raise ValueError).
  { unfold bind_input. cbn [e_problem e_next].
    pose proof (approximation_spec points (m_tau (o_model (e_problem s'))) degree (length y) next G) as A.
    destruct (approximation points (m_tau (o_model (e_problem s'))) degree (length y) next) as [appr par]. destruct A as [A1 _].
    pose proof (ocp_connect_gone u appr (e_problem s') ltac:(congruence) N) as C.
    unfold on_next, on_relax, on_problem, cbind, cmodify. cbn [e_problem e_next e_relax].
    destruct (ocp_connect u appr false (e_problem s')) as [o r]. cbn in C. subst r. reflexivity. }
  unfold include_exogenous. cbn [run_all]. unfold cbind.
  destruct (bind_input points degree false (y, u) (mkExo (e_problem s') next relax)) as [s2 r]. cbn in B. subst r. reflexivity.
Qed.

(** Witnesses and example facts for the indirect method. *)
From Coq Require Import String Qabs Qminmax Lqa Setoid Field.
From Verif Require Import Base BaseProofs ExprModel ExprProofs NlpModel SysModel SysSpec SysProofs
  OcpModel OcpSpec OcpProofs OcpMoreProofs DiscModel StoSpec StoBasisProofs IndModel IndSpec IndCalcProofs IndProofs
  IndQuadProofs IndPrepProofs.
Local Open Scope list_scope.

Lemma small_inverse_inverts : forall F, inverts F small_inverse.
Proof.
  intros F n M N [L1 L2] H. unfold small_inverse in H.
  destruct M as [|[|a [|b []]] [|[|c [|d []]] []]]; try discriminate.
  - injection H as <-. cbn in L1. subst n. split; [split; [reflexivity | repeat constructor]|].
    intros env [B HB] i j Hi Hj. assert (i = 0) by lia. assert (j = 0) by lia. subst i j.
    specialize (HB 0 0 Hi Hj). unfold qsum_to, value_at in *. cbn in *. field.
    intros Z. rewrite Z in HB. lra.
  - injection H as <-. cbn in L1. subst n. split; [split; [reflexivity | repeat constructor]|].
    intros env [B HB].
    set (a' := eval F env a). set (b' := eval F env b). set (c' := eval F env c). set (d' := eval F env d).
    assert (D : ~ (a' * d' - b' * c' == 0)%Q).
    { intros Z.
      pose proof (HB 0 0 ltac:(lia) ltac:(lia)) as E00. pose proof (HB 0 1 ltac:(lia) ltac:(lia)) as E01.
      pose proof (HB 1 0 ltac:(lia) ltac:(lia)) as E10. pose proof (HB 1 1 ltac:(lia) ltac:(lia)) as E11.
      unfold qsum_to, value_at in *. cbn in E00, E01, E10, E11. fold a' b' c' d' in E00, E01, E10, E11.
      assert (X : ((a' * d' - b' * c') * (B 0%nat 0%nat * B 1%nat 1%nat - B 0%nat 1%nat * B 1%nat 0%nat) ==
        (a' * B 0%nat 0%nat + (b' * B 1%nat 0%nat + 0)) * (c' * B 0%nat 1%nat + (d' * B 1%nat 1%nat + 0)) -
        (a' * B 0%nat 1%nat + (b' * B 1%nat 1%nat + 0)) * (c' * B 0%nat 0%nat + (d' * B 1%nat 0%nat + 0)))%Q) by ring.
      assert (Y : (a' * B 0%nat 0%nat + (b' * B 1%nat 0%nat + 0) == 1)%Q) by lra.
      assert (Y1 : (a' * B 0%nat 1%nat + (b' * B 1%nat 1%nat + 0) == 0)%Q) by lra.
      assert (Y2 : (c' * B 0%nat 0%nat + (d' * B 1%nat 0%nat + 0) == 0)%Q) by lra.
      assert (Y3 : (c' * B 0%nat 1%nat + (d' * B 1%nat 1%nat + 0) == 1)%Q) by lra.
      rewrite Z, Y, Y1, Y2, Y3 in X. lra. }
    intros i j Hi Hj.
    destruct i as [|[|i]]; [| |lia]; (destruct j as [|[|j]]; [| |lia]); unfold qsum_to, value_at; cbn;
      fold a' b' c' d'; field; exact D.
Qed.

(** ** Quadratic cases *)

Ltac obtained := vm_compute; reflexivity.
Ltac poly_in :=
  intros v; split;
  [ apply polynomial_smooth; vm_compute; reflexivity
  | intros d Hd; apply polynomial_smooth; vm_compute in Hd;
    repeat (destruct Hd as [<-|Hd]; [vm_compute; reflexivity|]); destruct Hd ].

Lemma single_case : exists k u_opt,
    example_adjoint single_history single_cost = Ok k /\
    calculate_optimal_control no_unary never_zero small_inverse k = Ok u_opt /\
    forall F env, quadratic_case F no_unary env k two.
Proof.
  eexists. eexists. split; [obtained|]. split; [obtained|]. intros F env. unfold quadratic_case, i_model.
  cbn [i_problem o_model m_u length i_H].
  split; [repeat constructor; intros []|].
  split; [intros i j _ _; reflexivity|].
  split.
  { exists (fun _ _ => (1 # 2)%Q). intros i j Hi Hj. assert (i = 0) by lia. assert (j = 0) by lia. subst i j. reflexivity. }
  split; [|poly_in].
  exists 0%Q, (fun _ => env 30). intros v. unfold controls_at, quadratic, qsum_to, two.
  cbn -[Qplus Qmult Qminus]. ring.
Qed.

Lemma coupling_semidefinite : semidefinite 2 coupling.
Proof.
  intros v. unfold qsum_to, coupling. cbn -[Qplus Qmult Qle].
  setoid_replace (v 0%nat * (2 * v 0%nat + (1 * v 1%nat + 0)) + (v 1%nat * (1 * v 0%nat + (2 * v 1%nat + 0)) + 0))%Q
    with (v 0%nat * v 0%nat + v 1%nat * v 1%nat + (v 0%nat + v 1%nat) * (v 0%nat + v 1%nat))%Q by ring.
  pose proof (square_nonneg (v 0%nat)). pose proof (square_nonneg (v 1%nat)).
  pose proof (square_nonneg (v 0%nat + v 1%nat)). lra.
Qed.
Lemma coupled_case : exists k u_opt,
    example_adjoint coupled_history coupled_cost = Ok k /\
    calculate_optimal_control no_unary never_zero small_inverse k = Ok u_opt /\
    (forall F env, quadratic_case F no_unary env k coupling) /\
    feasible (i_problem k) (fun i => nth i [1; - (1 # 2)]%Q 0%Q) /\
    forall F, feasible (i_problem k) (control_values F (fun _ => 0%Q) u_opt) /\
      (hamiltonian_at F (fun _ => 0%Q) k (fun i => nth i [1; - (1 # 2)]%Q 0%Q) <
       hamiltonian_at F (fun _ => 0%Q) k (control_values F (fun _ => 0%Q) u_opt))%Q.
Proof.
  eexists. eexists. split; [obtained|]. split; [obtained|]. split; [|split].
  - intros F env. unfold quadratic_case, i_model. cbn [i_problem o_model m_u length i_H].
    split; [repeat constructor; simpl; intros [H|[]] || intros []; discriminate|].
    split; [intros i j Hi Hj; unfold coupling; rewrite Nat.eqb_sym; reflexivity|].
    split.
    { exists (fun i j => if i =? j then 2 # 3 else - (1 # 3))%Q. intros i j Hi Hj.
      destruct i as [|[|i]]; [| |lia]; (destruct j as [|[|j]]; [| |lia]); reflexivity. }
    split; [|poly_in].
    exists 0%Q, (fun i => nth i [env 30%nat - 3; env 30%nat]%Q 0%Q). intros v. unfold controls_at, quadratic, qsum_to, coupling.
    cbn -[Qplus Qmult Qminus]. field.
  - intros i Hi. cbn in Hi. destruct i as [|[|i]]; [| |lia]; vm_compute; repeat split; discriminate.
  - intros F. split.
    + intros i Hi. cbn in Hi. destruct i as [|[|i]]; [| |lia]; vm_compute; repeat split; discriminate.
    + vm_compute. reflexivity.
Qed.

(** A cost of degree four: the result depends on the control it is to replace, and is
    not the minimum. *)
Lemma quartic_case : exists k u_opt,
    example_adjoint single_history quartic_cost = Ok k /\
    calculate_optimal_control no_unary never_zero small_inverse k = Ok [u_opt] /\
    (forall F, ~ (eval F (controls_at (fun _ => 0%Q) [20%nat] (fun _ => 0%Q)) u_opt ==
                  eval F (controls_at (fun _ => 0%Q) [20%nat] (fun _ => 1%Q)) u_opt)%Q) /\
    feasible (i_problem k) (fun _ => (2 # 5)%Q) /\
    forall F, (hamiltonian_at F (fun _ => 0%Q) k (fun _ => (2 # 5)%Q) <
               hamiltonian_at F (fun _ => 0%Q) k (control_values F (fun _ => 0%Q) [u_opt]))%Q.
Proof.
  eexists. eexists. split; [obtained|]. split; [obtained|]. split; [|split].
  - intros F H. vm_compute in H. discriminate.
  - intros i Hi. cbn in Hi. destruct i as [|i]; [|lia]. vm_compute; repeat split; discriminate.
  - intros F. vm_compute. reflexivity.
Qed.

(** ** Preparation *)

Lemma w_lamb_cost : exists k k',
    example_indirect single_history single_cost = Ok k /\
    indirect_prepare no_unary never_zero small_inverse example_names (with_cost_state k) = (k', Ok tt) /\
    lamb_sym (i_model k') = n_lamb example_names ++ [n_cost example_names].
Proof. eexists. eexists. split; [obtained|]. split; obtained. Qed.

Lemma prepare_example : exists k k',
    example_indirect single_history single_cost = Ok k /\
    in_step (i_model k) /\ names_for example_names (i_problem k) /\ has_hamiltonian (i_problem k) /\
    (forall F env, smooth_problem F no_unary env (i_problem k)) /\
    indirect_prepare no_unary never_zero small_inverse example_names k = (k', Ok tt) /\
    lamb_sym (i_model k') = n_lamb example_names /\ m_u_par (i_model k') = [].
Proof.
  eexists. eexists. split; [obtained|]. split.
  { split; [obtained|]. constructor; [intros [] | constructor]. }
  split.
  { split; [obtained|]. split; [obtained|]. split; [obtained|]. split; [obtained|]. split.
    - constructor; [intros [] | constructor].
    - intros s [<-|[]] [H|[]]. discriminate. }
  split.
  { split; [|repeat split; vm_compute; reflexivity]. intros s [<-|[]]. eexists. left. reflexivity. }
  split.
  { intros F env. repeat split; repeat constructor. }
  split; [obtained|]. split; obtained.
Qed.

Lemma w_coupled_refuted : exists k u_opt env A w,
    example_adjoint coupled_history coupled_cost = Ok k /\
    (forall F, quadratic_case F no_unary env k A /\ inverts F small_inverse) /\
    semidefinite (length (m_u (i_model k))) A /\
    calculate_optimal_control no_unary never_zero small_inverse k = Ok u_opt /\
    feasible (i_problem k) w /\
    forall F, feasible (i_problem k) (control_values F env u_opt) /\
              (hamiltonian_at F env k w < hamiltonian_at F env k (control_values F env u_opt))%Q.
Proof.
  destruct coupled_case as [k [u_opt [H1 [H2 [H3 [H4 H5]]]]]].
  exists k, u_opt, (fun _ => 0%Q), coupling, (fun i => nth i [1; - (1 # 2)]%Q 0%Q).
  split; [exact H1|]. split; [intros F; split; [apply H3 | apply small_inverse_inverts]|].
  split.
  { assert (E : length (m_u (i_model k)) = 2%nat).
    { clear - H1. vm_compute in H1. injection H1 as <-. reflexivity. }
    rewrite E. exact coupling_semidefinite. }
  split; [exact H2|]. split; [exact H4 | exact H5].
Qed.
Lemma w_nonquadratic_refuted : exists k u_opt, example_adjoint single_history quartic_cost = Ok k /\
    calculate_optimal_control no_unary never_zero small_inverse k = Ok [u_opt] /\
    (forall F, inverts F small_inverse) /\
    (forall F, ~ (eval F (controls_at (fun _ => 0%Q) [20%nat] (fun _ => 0%Q)) u_opt ==
                  eval F (controls_at (fun _ => 0%Q) [20%nat] (fun _ => 1%Q)) u_opt)%Q) /\
    feasible (i_problem k) (fun _ => (2 # 5)%Q) /\
    forall F, (hamiltonian_at F (fun _ => 0%Q) k (fun _ => (2 # 5)%Q) <
               hamiltonian_at F (fun _ => 0%Q) k (control_values F (fun _ => 0%Q) [u_opt]))%Q.
Proof.
  destruct quartic_case as [k [u_opt [H1 [H2 [H3 [H4 H5]]]]]]. exists k, u_opt.
  split; [exact H1|]. split; [exact H2|]. split; [exact small_inverse_inverts|].
  split; [exact H3|]. split; [exact H4 | exact H5].
Qed.
Lemma w_C55_ex : exists k u_opt, example_adjoint single_history single_cost = Ok k /\
    calculate_optimal_control no_unary never_zero small_inverse k = Ok u_opt /\
    (forall F env, quadratic_case F no_unary env k two /\ inverts F small_inverse) /\
    diagonal_positive (length (m_u (i_model k))) two /\ feasible (i_problem k) (fun _ => 0%Q).
Proof.
  destruct single_case as [k [u_opt [H1 [H2 H3]]]]. exists k, u_opt.
  split; [exact H1|]. split; [exact H2|].
  split; [intros F env; split; [apply H3 | apply small_inverse_inverts]|].
  vm_compute in H1. injection H1 as <-. cbn [m_u i_model i_problem o_model length]. split.
  - split; [intros; reflexivity|]. intros i j Hi Hj N. exfalso. cbn in Hi, Hj. lia.
  - intros i Hi. cbn in Hi. destruct i as [|i]; [|lia]. vm_compute. split; discriminate.
Qed.
Lemma w_no_hamiltonian : forall dfun n k, in_step (i_model k) -> names_for n (i_problem k) ->
    ~ (complete (o_model (i_problem k)) /\
       length (m_alg (o_model (i_problem k))) = length (m_y (o_model (i_problem k))) /\
       length (o_L (i_problem k)) = 1%nat) ->
    exists e, create_adjoint_states dfun n k = (set_i_problem (set_o_eta (n_eta n) (i_problem k)) k, Raise e).
Proof.
  intros dfun n k S N H.
  destruct (hamiltonian (n_lamb n) (n_nu n) (i_problem k)) as [h|e] eqn:E.
  - exfalso. apply H. apply (proj1 (hamiltonian_iff n _ S N)). eauto.
  - exists e. apply adjoint_fails_early, E.
Qed.
Lemma w_construct : forall degree elements create_cost o, ready_to_solve o ->
    exists k, new_indirect degree elements None create_cost o = (without_path_bounds o, Ok k) /\
      i_problem k = without_path_bounds o /\ degree_control k = degree /\ i_elements k = elements.
Proof.
  intros degree elements create_cost o R. eexists. split; [apply construct_ok, R|].
  split; [reflexivity|]. split; reflexivity.
Qed.
Lemma w_C73_ex : exists o k, example_problem single_history single_cost = Ok o /\ ready_to_solve o /\
    new_indirect 3 10 None false o = (without_path_bounds o, Ok k) /\
    o_x_max o = [Fin 5%Q] /\ o_x_max (without_path_bounds o) = [PInf] /\
    i_prepared k = false /\ i_create_cost k = false.
Proof.
  eexists. eexists. split; [obtained|]. split.
  { apply (proj1 (check_exact _)). obtained. }
  split; [obtained|]. split; [obtained|]. split; [obtained|]. split; obtained.
Qed.

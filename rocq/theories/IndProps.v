(** Properties of the indirect method. *)
From Coq Require Import String Qabs Qminmax.
From Verif Require Import Base ExprModel ExprProofs NlpModel SysModel SysSpec OcpModel OcpSpec DiscModel StoSpec
  IndModel IndSpec IndPrepProofs IndWitnessProofs.
Local Open Scope list_scope.

(** ** C55 *)

(** Every computed control lies between its bounds, whatever the values of the other
    quantities, provided that some value lies between them. *)
Theorem C55_within_bounds :
  forall F env dfun zero inverse k u_opt i,
    calculate_optimal_control dfun zero inverse k = Ok u_opt -> i < length u_opt ->
    consistent (nth i (o_u_min (i_problem k)) NInf) (nth i (o_u_max (i_problem k)) PInf) ->
    between (nth i (o_u_min (i_problem k)) NInf) (nth i (o_u_max (i_problem k)) PInf)
            (eval F env (nth i u_opt (EConst 0%Q))).
Proof. exact w_within. Qed.
Print Assumptions C55_within_bounds.

(** Where the Hamiltonian is quadratic in the controls it has exactly one stationary
    point, and if that respects the bounds it is the computed control. *)
Theorem C55_stationary :
  forall F dfun zero inverse env k A u_opt,
    respects F -> inverts F inverse -> quadratic_case F dfun env k A ->
    calculate_optimal_control dfun zero inverse k = Ok u_opt ->
    exists s, stationary F env (m_u (i_model k)) (i_H k) s /\
      (forall t, stationary F env (m_u (i_model k)) (i_H k) t ->
         forall i, i < length (m_u (i_model k)) -> (t i == s i)%Q) /\
      (feasible (i_problem k) s ->
         forall i, i < length (m_u (i_model k)) -> (control_values F env u_opt i == s i)%Q).
Proof. exact w_stationary. Qed.
Print Assumptions C55_stationary.

(** With no products of different controls and positive squares, the computed control is
    feasible and no feasible control has a lower Hamiltonian. *)
Theorem C55_minimises_separate :
  forall F dfun zero inverse env k A u_opt,
    respects F -> inverts F inverse -> quadratic_case F dfun env k A ->
    calculate_optimal_control dfun zero inverse k = Ok u_opt ->
    diagonal_positive (length (m_u (i_model k))) A ->
    (exists w, feasible (i_problem k) w) ->
    feasible (i_problem k) (control_values F env u_opt) /\
    forall w, feasible (i_problem k) w ->
      (hamiltonian_at F env k (control_values F env u_opt) <= hamiltonian_at F env k w)%Q.
Proof. exact w_minimises_diagonal. Qed.
Print Assumptions C55_minimises_separate.

(** With a convex Hamiltonian and a stationary point within the bounds, no control at
    all has a lower Hamiltonian. *)
Theorem C55_minimises_inside :
  forall F dfun zero inverse env k A u_opt s,
    respects F -> inverts F inverse -> quadratic_case F dfun env k A ->
    calculate_optimal_control dfun zero inverse k = Ok u_opt ->
    semidefinite (length (m_u (i_model k))) A ->
    stationary F env (m_u (i_model k)) (i_H k) s -> feasible (i_problem k) s ->
    forall w, (hamiltonian_at F env k (control_values F env u_opt) <= hamiltonian_at F env k w)%Q.
Proof. exact w_minimises_inside. Qed.
Print Assumptions C55_minimises_inside.

(** Where the Hamiltonian is quadratic in the controls, the computed control does not
    depend on the values of the controls. *)
Theorem C55_independent :
  forall F dfun zero inverse env k A u_opt v,
    respects F -> inverts F inverse -> quadratic_case F dfun env k A ->
    calculate_optimal_control dfun zero inverse k = Ok u_opt ->
    length u_opt = length (m_u (i_model k)) /\
    forall i, i < length (m_u (i_model k)) ->
      (control_values F (controls_at env (m_u (i_model k)) v) u_opt i == control_values F env u_opt i)%Q.
Proof. exact w_independent. Qed.
Print Assumptions C55_independent.

(** A second derivative that casadi recognises as zero is refused. *)
Theorem C55_affine :
  forall dfun zero inverse k,
    zero (hessian dfun (i_H k) (m_u (i_model k))) = true ->
    calculate_optimal_control dfun zero inverse k = Raise AnyException.
Proof. exact w_affine. Qed.
Print Assumptions C55_affine.

(** Refuted: the computed control minimises a convex Hamiltonian over the feasible
    controls.  When controls are coupled, cutting each at its bounds is not optimal. *)
Theorem C55_coupled_refuted :
  exists k u_opt env A w,
    example_adjoint coupled_history coupled_cost = Ok k /\
    (forall F, quadratic_case F no_unary env k A /\ inverts F small_inverse) /\
    semidefinite (length (m_u (i_model k))) A /\
    calculate_optimal_control no_unary never_zero small_inverse k = Ok u_opt /\
    feasible (i_problem k) w /\
    forall F, feasible (i_problem k) (control_values F env u_opt) /\
              (hamiltonian_at F env k w < hamiltonian_at F env k (control_values F env u_opt))%Q.
Proof. exact w_coupled_refuted. Qed.
Print Assumptions C55_coupled_refuted.

(** Refuted: a Hamiltonian that is not quadratic in the controls is refused.  For the
    cost u^4 + u^2 - u the result depends on the very control it is to replace and is
    not a minimum. *)
Theorem C55_nonquadratic_refuted :
  exists k u_opt, example_adjoint single_history quartic_cost = Ok k /\
    calculate_optimal_control no_unary never_zero small_inverse k = Ok [u_opt] /\
    (forall F, inverts F small_inverse) /\
    (forall F, ~ (eval F (controls_at (fun _ => 0%Q) [20%nat] (fun _ => 0%Q)) u_opt ==
                  eval F (controls_at (fun _ => 0%Q) [20%nat] (fun _ => 1%Q)) u_opt)%Q) /\
    feasible (i_problem k) (fun _ => (2 # 5)%Q) /\
    forall F, (hamiltonian_at F (fun _ => 0%Q) k (fun _ => (2 # 5)%Q) <
               hamiltonian_at F (fun _ => 0%Q) k (control_values F (fun _ => 0%Q) [u_opt]))%Q.
Proof. exact w_nonquadratic_refuted. Qed.
Print Assumptions C55_nonquadratic_refuted.

(** A tank with one bounded inflow meets all hypotheses, everywhere. *)
Example C55_ex :
  exists k u_opt, example_adjoint single_history single_cost = Ok k /\
    calculate_optimal_control no_unary never_zero small_inverse k = Ok u_opt /\
    (forall F env, quadratic_case F no_unary env k two /\ inverts F small_inverse) /\
    diagonal_positive (length (m_u (i_model k))) two /\ feasible (i_problem k) (fun _ => 0%Q).
Proof. exact w_C55_ex. Qed.

(** ** C72 *)

(** Creating the adjoint states succeeds exactly when every state has an equation, there
    are as many algebraic equations as algebraic variables, and both costs are scalar. *)
Theorem C72_succeeds_iff :
  forall dfun n k, in_step (i_model k) -> names_for n (i_problem k) ->
    snd (create_adjoint_states dfun n k) = Ok tt <-> has_hamiltonian (i_problem k).
Proof. exact w_adjoint_iff. Qed.
Print Assumptions C72_succeeds_iff.

(** It records the Hamiltonian, and appends the adjoint equations (minus the derivatives
    by the states), the derivatives by the algebraic variables as algebraic equations,
    and the transversality conditions; nothing else of the problem changes. *)
Theorem C72_adjoint_system :
  forall dfun n k k', in_step (i_model k) -> names_for n (i_problem k) ->
    create_adjoint_states dfun n k = (k', Ok tt) ->
    is_hamiltonian n (i_problem k) (i_H k') /\
    exists l_dot g t, i_problem k' = with_adjoints n l_dot g t (i_problem k) /\
      forall F env, respects F -> smooth_problem F dfun env (i_problem k) ->
        adjoint_values F env n (i_problem k) (i_H k') l_dot g t.
Proof. exact w_adjoint. Qed.
Print Assumptions C72_adjoint_system.

(** Without a Hamiltonian only the multipliers of the final conditions are replaced. *)
Theorem C72_no_hamiltonian :
  forall dfun n k, in_step (i_model k) -> names_for n (i_problem k) ->
    ~ (complete (o_model (i_problem k)) /\
       length (m_alg (o_model (i_problem k))) = length (m_y (o_model (i_problem k))) /\
       length (o_L (i_problem k)) = 1) ->
    exists e, create_adjoint_states dfun n k = (set_i_problem (set_o_eta (n_eta n) (i_problem k)) k, Raise e).
Proof. exact w_no_hamiltonian. Qed.
Print Assumptions C72_no_hamiltonian.

Example C72_ex :
  exists k k', example_indirect single_history single_cost = Ok k /\
    in_step (i_model k) /\ names_for example_names (i_problem k) /\ has_hamiltonian (i_problem k) /\
    (forall F env, smooth_problem F no_unary env (i_problem k)) /\
    indirect_prepare no_unary never_zero small_inverse example_names k = (k', Ok tt) /\
    lamb_sym (i_model k') = n_lamb example_names /\ m_u_par (i_model k') = [].
Proof. exact prepare_example. Qed.

(** ** C73 *)

(** Constructing the method removes the bounds of states and algebraic variables from
    the caller's problem and changes nothing else. *)
Theorem C73_construct :
  forall degree elements create_cost o, ready_to_solve o ->
    exists k, new_indirect degree elements None create_cost o = (without_path_bounds o, Ok k) /\
      i_problem k = without_path_bounds o /\ degree_control k = degree /\ i_elements k = elements.
Proof. exact w_construct. Qed.
Print Assumptions C73_construct.

(** A separate degree for the controls is refused before anything is changed. *)
Theorem C73_degree_control :
  forall degree elements d create_cost o,
    new_indirect degree elements (Some d) create_cost o = (o, Raise ValueError).
Proof. exact construct_degree_control. Qed.
Print Assumptions C73_degree_control.

(** A prepared problem is the adjoint problem in which the controls were replaced by the
    computed ones: wherever the Hamiltonian is quadratic in the controls, every cost,
    constraint and equation has the value it has for the computed controls. *)
Theorem C73_prepare :
  forall dfun zero inverse n k k',
    in_step (i_model k) -> names_for n (i_problem k) -> i_prepared k = false -> i_create_cost k = false ->
    indirect_prepare dfun zero inverse n k = (k', Ok tt) ->
    ready_to_solve (i_problem k) /\
    exists l_dot g t u_opt,
      let k1 := set_i_problem (with_adjoints n l_dot g t (i_problem k)) k' in
      is_hamiltonian n (i_problem k) (i_H k') /\
      (forall F env, respects F -> smooth_problem F dfun env (i_problem k) ->
         adjoint_values F env n (i_problem k) (i_H k') l_dot g t) /\
      calculate_optimal_control dfun zero inverse k1 = Ok u_opt /\
      forall F env A, respects F -> inverts F inverse -> quadratic_case F dfun env k1 A ->
        takes_values F env (controls_at env (m_u (i_model k)) (control_values F env u_opt))
                     (i_problem k1) (i_problem k').
Proof. exact w_prepare. Qed.
Print Assumptions C73_prepare.

(** A problem that is not ready is refused unchanged. *)
Theorem C73_refuses :
  forall dfun zero inverse n k, i_prepared k = false -> ~ ready_to_solve (i_problem k) ->
    exists e, indirect_prepare dfun zero inverse n k = (k, Raise e).
Proof. exact w_prepare_refuses. Qed.
Print Assumptions C73_refuses.

(** Refuted: after preparation the reported adjoint states are the created ones.  A cost
    state is reported as one of them. *)
Theorem C73_cost_state_refuted :
  exists k k', example_indirect single_history single_cost = Ok k /\
    indirect_prepare no_unary never_zero small_inverse example_names (with_cost_state k) = (k', Ok tt) /\
    lamb_sym (i_model k') = n_lamb example_names ++ [n_cost example_names].
Proof. exact w_lamb_cost. Qed.
Print Assumptions C73_cost_state_refuted.

Example C73_ex :
  exists o k, example_problem single_history single_cost = Ok o /\ ready_to_solve o /\
    new_indirect 3 10 None false o = (without_path_bounds o, Ok k) /\
    o_x_max o = [Fin 5%Q] /\ o_x_max (without_path_bounds o) = [PInf] /\
    i_prepared k = false /\ i_create_cost k = false.
Proof. exact w_C73_ex. Qed.

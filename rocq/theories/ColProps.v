(** Properties of the transcription by collocation. *)
From Coq Require Import String Sorted SetoidList Lqa.
From Verif Require Import Base UtilModel ExprModel ExprProofs NlpModel NlpSpec SysModel SysSpec SimModel OcpModel OcpSpec
  LagModel LagSpec DiscModel DiscSpec ColSpec ColMainProofs ColTopProofs ColClosedProofs.
Local Open Scope list_scope.
Local Open Scope nat_scope.

(** The feasible set of the nonlinear program is the set of collocated trajectories that
    respect the bounds: a decision vector is feasible exactly when the piecewise polynomial
    trajectory it stands for starts at the initial condition, is continuous, satisfies the
    differential and algebraic equations at every collocation point, the limits on control
    increments, the constraints at the times they are imposed and the final ones. *)
Theorem C58_feasible : forall F points dfun k c n s r,
    respects F -> transcribable k -> collocation_points (points (k_degree k)) (k_degree k) ->
    create_optimization_problem (collocation_discretize points dfun k) k c = Ok (n, s, r) ->
    forall env q, describes k (points (k_degree k)) env s r q ->
      (feasible F env n <-> bounded k env r /\ collocated F k q (points (k_degree k))).
Proof. exact w_C58_feasible. Qed.
Print Assumptions C58_feasible.

(** Every value of the decision vector stands for one trajectory, and every trajectory of
    polynomials of the right degree is the one of some decision vector: the description
    above leaves out nothing and invents nothing. *)
Theorem C58_trajectory_exists : forall points dfun k c n s r env,
    transcribable k -> collocation_points (points (k_degree k)) (k_degree k) ->
    create_optimization_problem (collocation_discretize points dfun k) k c = Ok (n, s, r) ->
    exists q, describes k (points (k_degree k)) env s r q.
Proof. exact trajectory_exists. Qed.
Print Assumptions C58_trajectory_exists.

Theorem C58_trajectory_unique : forall points dfun k c n s r env q q',
    transcribable k -> collocation_points (points (k_degree k)) (k_degree k) ->
    create_optimization_problem (collocation_discretize points dfun k) k c = Ok (n, s, r) ->
    describes k (points (k_degree k)) env s r q -> describes k (points (k_degree k)) env s r q' ->
    (forall el i t, el < k_elements k -> i < length (m_x (k_model k)) -> (poly (q_x q el i) t == poly (q_x q' el i) t)%Q) /\
    (forall el i t, el < k_elements k -> i < length (m_y (k_model k)) -> (poly (q_y q el i) t == poly (q_y q' el i) t)%Q).
Proof. exact w_C58_trajectory_unique. Qed.
Print Assumptions C58_trajectory_unique.

Theorem C58_every_trajectory : forall points dfun k c n s r q,
    transcribable k -> collocation_points (points (k_degree k)) (k_degree k) ->
    create_optimization_problem (collocation_discretize points dfun k) k c = Ok (n, s, r) ->
    sized k (points (k_degree k)) q ->
    exists env, describes k (points (k_degree k)) env s r q.
Proof. exact decision_exists. Qed.
Print Assumptions C58_every_trajectory.

(** The decision variables of the nonlinear program are the trajectories returned, all of
    them different from each other and from the parameters. *)
Theorem C58_variables : forall points dfun k c n s r,
    transcribable k -> collocation_points (points (k_degree k)) (k_degree k) ->
    create_optimization_problem (collocation_discretize points dfun k) k c = Ok (n, s, r) ->
    nx n = flatten r /\ NoDup (all_mx s ++ flatten r).
Proof. exact w_C58_variables. Qed.
Print Assumptions C58_variables.

(** The number of constraints. *)
Theorem C58_constraint_count : forall points dfun k c n s r,
    transcribable k -> collocation_points (points (k_degree k)) (k_degree k) ->
    create_optimization_problem (collocation_discretize points dfun k) k c = Ok (n, s, r) ->
    length (ng n) = collocation_constraints k.
Proof. exact w_C58_constraint_count. Qed.
Print Assumptions C58_constraint_count.

(** The objective of the direct method: the final cost at the end of the trajectory and the
    terms at the ends of the elements. *)
Theorem C58_direct_cost : forall F points dfun k c n s r v w,
    respects F -> transcribable k -> collocation_points (points (k_degree k)) (k_degree k) ->
    create_optimization_problem (collocation_discretize points dfun k) k c = Ok (n, s, r) ->
    k_direct k = true -> o_V (k_problem k) = [v] -> o_S (k_problem k) = [w] ->
    exists e, nf n = [e] /\ forall env q, describes k (points (k_degree k)) env s r q ->
      (eval F env e == trajectory_cost F k q v w)%Q.
Proof. exact w_C58_direct_cost. Qed.
Print Assumptions C58_direct_cost.

(** The indirect method has the objective zero: it looks for a feasible point. *)
Theorem C58_indirect_cost : forall points dfun k c n s r,
    transcribable k -> collocation_points (points (k_degree k)) (k_degree k) ->
    create_optimization_problem (collocation_discretize points dfun k) k c = Ok (n, s, r) ->
    k_direct k = false -> nf n = [EConst 0%Q].
Proof. exact w_C58_indirect_cost. Qed.
Print Assumptions C58_indirect_cost.

(** The cart satisfies the hypotheses, and its feasible set is not empty: staying at rest
    is feasible, with the sum of the positions at the end of the two elements as cost. *)
Example limited_cart_transcribed : exists k n s r env,
    limited_cart = Ok k /\ transcribable k /\ collocation_points (radau_two (k_degree k)) (k_degree k) /\
    create_optimization_problem (collocation_discretize radau_two (fun _ e => e) k) k 1000 = Ok (n, s, r) /\
    length (nx n) = 27 /\ length (ng n) = 31 /\
    describes k (radau_two (k_degree k)) env s r at_rest /\
    collocated (fun _ x => x) k at_rest (radau_two (k_degree k)) /\
    bounded k env r /\ feasible (fun _ x => x) env n.
Proof. exact w_limited_cart_transcribed. Qed.

(** What the transcription always refuses: an unknown time of imposition, limits on control
    increments without a parameter for the previous control, degree one with states,
    and a problem without states. *)
Theorem C58_imposition_times : forall points dfun k c n s r, well_bounded (k_problem k) ->
    create_optimization_problem (collocation_discretize points dfun k) k c = Ok (n, s, r) ->
    let known ws i := exists w, nth_error ws i = Some w /\ (w = "start" \/ w = "end" \/ w = "default")%string in
    (forall i, i < length (o_g_ineq (k_problem k)) -> known (o_when_ineq (k_problem k)) i) /\
    (forall i, i < length (o_g_eq (k_problem k)) -> known (o_when_eq (k_problem k)) i).
Proof. exact tags_known. Qed.
Print Assumptions C58_imposition_times.

Theorem C58_rate_limits_need_last_control : forall points dfun k c n s r, well_bounded (k_problem k) ->
    create_optimization_problem (collocation_discretize points dfun k) k c = Ok (n, s, r) ->
    rate_bounded (k_problem k) -> k_last_u_par k = true.
Proof. exact w_C58_rate_limits. Qed.
Print Assumptions C58_rate_limits_need_last_control.

Theorem C58_degree_one_refuted : forall points dfun k c n s r, well_bounded (k_problem k) ->
    k_degree k = 1 -> m_x (k_model k) <> [] ->
    create_optimization_problem (collocation_discretize points dfun k) k c <> Ok (n, s, r).
Proof. exact degree_one_refused. Qed.
Print Assumptions C58_degree_one_refuted.

Theorem C58_no_states_refuted : forall points dfun k c n s r, well_bounded (k_problem k) ->
    k_degree k <> 1 -> m_x (k_model k) = [] ->
    create_optimization_problem (collocation_discretize points dfun k) k c <> Ok (n, s, r).
Proof. exact no_states_refused. Qed.
Print Assumptions C58_no_states_refuted.

(** The limited cart has limits on the force increments and constraints with both times of
    imposition; with degree one it would be refused. *)
Example limited_cart_rates : exists k, limited_cart = Ok k /\ well_bounded (k_problem k) /\ rate_bounded (k_problem k) /\
    k_last_u_par k = true /\ o_when_ineq (k_problem k) = ["default"; "end"]%string /\ m_x (k_model k) <> [].
Proof. exact w_limited_cart_rates. Qed.

(** When the method has parameters, all of them are declared, and nothing but the decision
    variables and the declared parameters matters: points that agree on them are feasible
    together and cost the same. *)
Theorem C58_closed : forall F points dfun k c n s r,
    respects F -> transcribable k -> collocation_points (points (k_degree k)) (k_degree k) ->
    create_optimization_problem (collocation_discretize points dfun k) k c = Ok (n, s, r) -> parametrised k ->
    np n = all_mx s /\
    forall env env', same_declared n env env' ->
      (feasible F env n <-> feasible F env' n) /\
      (k_direct k = true -> forall v w, o_V (k_problem k) = [v] -> o_S (k_problem k) = [w] ->
         exists e, nf n = [e] /\ (eval F env e == eval F env' e)%Q).
Proof. exact w_C58_closed. Qed.
Print Assumptions C58_closed.
Example limited_cart_closed : exists k n s r,
    limited_cart = Ok k /\ transcribable k /\ collocation_points (radau_two (k_degree k)) (k_degree k) /\
    create_optimization_problem (collocation_discretize radau_two (fun _ e => e) k) k 1000 = Ok (n, s, r) /\
    parametrised k /\ length (np n) = 10 /\ length (nx n) = 27.
Proof. exact w_limited_cart_closed. Qed.

(** Refuted: the nonlinear program always contains declared symbols only.  Without parameters
    the initial condition is a symbol that is not declared, and whether a point is feasible
    depends on it. *)
Theorem C58_undeclared_refuted : forall F points dfun k c n s r,
    respects F -> transcribable k -> collocation_points (points (k_degree k)) (k_degree k) ->
    create_optimization_problem (collocation_discretize points dfun k) k c = Ok (n, s, r) ->
    ~ parametrised k -> fixes_a_state k ->
    np n = [] /\ forall env, exists env', same_declared n env env' /\ ~ feasible F env' n.
Proof. exact w_C58_undeclared. Qed.
Print Assumptions C58_undeclared_refuted.
Example closed_tank_undeclared : exists k n s r,
    closed_tank = Ok k /\ transcribable k /\ collocation_points (radau_two (k_degree k)) (k_degree k) /\
    create_optimization_problem (collocation_discretize radau_two (fun _ e => e) k) k 1000 = Ok (n, s, r) /\
    ~ parametrised k /\ fixes_a_state k /\ length (nx n) = 14 /\ length (all_mx s) = 2.
Proof. exact w_closed_tank_undeclared. Qed.

(** Properties of the transcription by multiple shooting. *)
From Coq Require Import String.
From Verif Require Import Base UtilModel ExprModel ExprProofs NlpModel NlpSpec SysModel SysSpec SimModel OcpModel OcpSpec
  LagModel LagSpec DiscModel DiscSpec ColSpec ShoModel ShoSpec ShoTopProofs ShoMoreProofs ShoClosedProofs.
Local Open Scope list_scope.
Local Open Scope nat_scope.

(** The feasible set of the nonlinear program: a decision vector is feasible exactly when it
    respects the bounds, its states start at the initial condition, the simulation of every
    element ends with the states the next one begins with and with the algebraic variables
    of the element, and the limits on control increments, the constraints at the ends of
    the elements and the final ones hold. *)
Theorem C66_feasible : forall buildable label defaults ty k c n s r shots, shootable k ->
    create_optimization_problem (shooting_discretize buildable label defaults ty k) k c = Ok (n, s, (r, shots)) ->
    forall F integrate env h, respects F ->
      describes_shooting k env s r h -> computed F integrate defaults env shots ->
      exists ends, simulated integrate defaults ty label k h ends /\
        (feasible F env n <-> bounded k env r /\ shot_through F k h ends).
Proof. exact w_C66_feasible. Qed.
Print Assumptions C66_feasible.

(** Every decision vector stands for one choice of states, controls and parameters, and
    every choice whose elements can be simulated is the one of some decision vector. *)
Theorem C66_description_exists : forall buildable label defaults ty k c n s r shots, shootable k ->
    create_optimization_problem (shooting_discretize buildable label defaults ty k) k c = Ok (n, s, (r, shots)) ->
    forall env, exists h, describes_shooting k env s r h.
Proof. exact description_exists. Qed.
Print Assumptions C66_description_exists.

Theorem C66_every_shooting : forall buildable label defaults ty k c n s r shots, shootable k ->
    create_optimization_problem (shooting_discretize buildable label defaults ty k) k c = Ok (n, s, (r, shots)) ->
    forall F integrate h ends, respects F -> sized_shooting k h ends ->
      simulated integrate defaults ty label k h ends ->
      exists env, describes_shooting k env s r h /\ computed F integrate defaults env shots.
Proof. exact shooting_point_exists. Qed.
Print Assumptions C66_every_shooting.

(** The decision variables are the trajectories returned, there is one simulation per
    element, and the number of constraints is the expected one. *)
Theorem C66_problem : forall buildable label defaults ty k c n s r shots, shootable k ->
    create_optimization_problem (shooting_discretize buildable label defaults ty k) k c = Ok (n, s, (r, shots)) ->
    nx n = flatten r /\ length (ng n) = shooting_constraints k.
Proof. exact w_C66_problem. Qed.
Print Assumptions C66_problem.

Theorem C66_shots : forall buildable label defaults ty k c n s r shots, shootable k ->
    create_optimization_problem (shooting_discretize buildable label defaults ty k) k c = Ok (n, s, (r, shots)) ->
    length shots = k_elements k /\
    NoDup (all_mx s ++ flatten r ++ concat (map (fun sh => sh_xf sh ++ sh_zf sh) shots)).
Proof. exact w_C66_shots. Qed.
Print Assumptions C66_shots.

(** The objective of a direct method: the final cost at the final state plus the cost at
    the ends of the elements. *)
Theorem C66_direct_cost : forall buildable label defaults ty k c n s r shots, shootable k ->
    create_optimization_problem (shooting_discretize buildable label defaults ty k) k c = Ok (n, s, (r, shots)) ->
    forall v w,
    k_direct k = true -> k_cost_as_sum k = false -> o_V (k_problem k) = [v] -> o_S (k_problem k) = [w] ->
    forall F integrate env h ends, respects F -> describes_shooting k env s r h ->
      computed F integrate defaults env shots -> simulated integrate defaults ty label k h ends ->
      exists e, nf n = [e] /\ (eval F env e == eval F (last_point k h) v + running_cost F k h w ends)%Q.
Proof. exact w_C66_direct_cost. Qed.
Print Assumptions C66_direct_cost.

Example limited_cart_shot : exists k n s r shots env,
    limited_cart = Ok k /\ shootable k /\
    create_optimization_problem (shooting_discretize any_integrator one_name [] "implicit" k) k 1000 = Ok (n, s, (r, shots)) /\
    length (nx n) = 16 /\ length (ng n) = 18 /\ length shots = 2 /\
    describes_shooting k env s r at_rest_shooting /\ computed (fun _ x => x) resting [] env shots /\
    simulated resting [] "implicit" one_name k at_rest_shooting at_rest_ends /\
    bounded k env r /\ shot_through (fun _ x => x) k at_rest_shooting at_rest_ends /\ feasible (fun _ x => x) env n.
Proof. exact w_limited_cart_shot. Qed.

(** When the cost is collected element by element: the sum of the costs collected plus the
    cost at the ends of the elements. *)
Theorem C66_summed_cost : forall buildable label defaults ty k c n s r shots, shootable k ->
    create_optimization_problem (shooting_discretize buildable label defaults ty k) k c = Ok (n, s, (r, shots)) ->
    forall w,
    k_direct k = true -> k_cost_as_sum k = true -> o_S (k_problem k) = [w] ->
    forall F integrate env h ends, respects F -> describes_shooting k env s r h ->
      computed F integrate defaults env shots -> simulated integrate defaults ty label k h ends ->
      exists e, nf n = [e] /\ (eval F env e == collected_cost k ends + running_cost F k h w ends)%Q.
Proof. exact w_C66_summed_cost. Qed.
Print Assumptions C66_summed_cost.

(** Then the final cost the user gave is lost: it has no effect on the problem at all. *)
Theorem C66_summed_final_cost_refuted : forall buildable label defaults ty k c v,
    k_direct k = true -> k_cost_as_sum k = true ->
    create_optimization_problem (shooting_discretize buildable label defaults ty (with_final_cost v k)) (with_final_cost v k) c =
    create_optimization_problem (shooting_discretize buildable label defaults ty k) k c.
Proof. exact w_C66_final_cost_refuted. Qed.
Print Assumptions C66_summed_final_cost_refuted.

Example summing_cart_shot : exists k n s r shots env w,
    limited_cart = Ok k /\ shootable (summing k) /\ k_direct (summing k) = true /\ o_S (k_problem (summing k)) = [w] /\
    create_optimization_problem (shooting_discretize any_integrator one_name [] "implicit" (summing k)) (summing k) 1000 = Ok (n, s, (r, shots)) /\
    describes_shooting (summing k) env s r at_rest_shooting /\ computed (fun _ x => x) resting [] env shots /\
    simulated resting [] "implicit" one_name (summing k) at_rest_shooting at_rest_ends /\
    (collected_cost (summing k) at_rest_ends + running_cost (fun _ x => x) (summing k) at_rest_shooting w at_rest_ends == 2)%Q.
Proof. exact w_summing_cart_shot. Qed.

(** An indirect method minimises nothing. *)
Theorem C66_indirect_cost : forall buildable label defaults ty k c n s r shots, shootable k ->
    create_optimization_problem (shooting_discretize buildable label defaults ty k) k c = Ok (n, s, (r, shots)) ->
    k_direct k = false -> nf n = [EConst 0%Q].
Proof. exact w_C66_indirect_cost. Qed.
Print Assumptions C66_indirect_cost.

(** What the transcription always refuses: a constraint imposed at the beginning of the
    elements (or at an unknown time), an empty horizon, and limits on control increments
    without a parameter for the previous control. *)
Theorem C66_imposition_times : forall buildable label defaults ty k c n s r shots,
    well_bounded (k_problem k) -> k_elements k <> 0 ->
    create_optimization_problem (shooting_discretize buildable label defaults ty k) k c = Ok (n, s, (r, shots)) ->
    let known ws i := nth_error ws i = Some "end"%string \/ nth_error ws i = Some "default"%string in
    (forall i, i < length (o_g_ineq (k_problem k)) -> known (o_when_ineq (k_problem k)) i) /\
    (forall i, i < length (o_g_eq (k_problem k)) -> known (o_when_eq (k_problem k)) i).
Proof. exact w_C66_imposition_times. Qed.
Print Assumptions C66_imposition_times.

Theorem C66_start_refuted : forall buildable label defaults ty k c i, well_bounded (k_problem k) -> k_elements k <> 0 ->
    (i < length (o_g_ineq (k_problem k)) /\ nth_error (o_when_ineq (k_problem k)) i = Some "start"%string \/
     i < length (o_g_eq (k_problem k)) /\ nth_error (o_when_eq (k_problem k)) i = Some "start"%string) ->
    exists e, create_optimization_problem (shooting_discretize buildable label defaults ty k) k c = Raise e.
Proof. exact w_C66_start_refused. Qed.
Print Assumptions C66_start_refuted.

Example start_cart_refused : exists k, limited_cart = Ok k /\
    let k1 := imposed_at "start" k in
    well_bounded (k_problem k1) /\ k_elements k1 <> 0 /\ 0 < length (o_g_ineq (k_problem k1)) /\
    nth_error (o_when_ineq (k_problem k1)) 0 = Some "start"%string /\
    create_optimization_problem (shooting_discretize any_integrator one_name [] "implicit" k1) k1 1000 = Raise NotImplementedErr.
Proof. exact w_start_cart_refused. Qed.

Theorem C66_empty_horizon : forall buildable label defaults ty k c, well_bounded (k_problem k) -> k_elements k <> 0 ->
    (o_t_0 (k_problem k) == o_t_f (k_problem k))%Q ->
    exists e, create_optimization_problem (shooting_discretize buildable label defaults ty k) k c = Raise e.
Proof. exact w_C66_empty_horizon. Qed.
Print Assumptions C66_empty_horizon.

Theorem C66_rate_limits : forall buildable label defaults ty k c n s r shots,
    well_bounded (k_problem k) -> k_elements k <> 0 ->
    create_optimization_problem (shooting_discretize buildable label defaults ty k) k c = Ok (n, s, (r, shots)) ->
    rate_bounded (k_problem k) -> k_last_u_par k = true.
Proof. exact w_C66_rate_limits. Qed.
Print Assumptions C66_rate_limits.

Example still_cart_refused : exists k, limited_cart = Ok k /\
    let k1 := lasting 0 k in
    well_bounded (k_problem k1) /\ k_elements k1 <> 0 /\ (o_t_0 (k_problem k1) == o_t_f (k_problem k1))%Q /\
    rate_bounded (k_problem k1) /\
    create_optimization_problem (shooting_discretize any_integrator one_name [] "implicit" k1) k1 1000 = Raise NotImplementedErr.
Proof. exact w_still_cart_refused. Qed.

(** When the method has parameters, all of them are declared, and nothing but the decision
    variables and the declared parameters matters. *)
Theorem C66_closed : forall buildable label defaults ty k c n s r shots, shootable k ->
    create_optimization_problem (shooting_discretize buildable label defaults ty k) k c = Ok (n, s, (r, shots)) ->
    parametrised k ->
    np n = all_mx s /\
    forall F integrate env env', respects F -> same_declared n env env' ->
      computed F integrate defaults env shots -> computed F integrate defaults env' shots ->
      (feasible F env n <-> feasible F env' n) /\
      (k_direct k = true -> forall v w, o_V (k_problem k) = [v] -> o_S (k_problem k) = [w] ->
         exists e, nf n = [e] /\ (eval F env e == eval F env' e)%Q).
Proof. exact w_C66_closed. Qed.
Print Assumptions C66_closed.
Example limited_cart_shot_closed : exists k n s r shots,
    limited_cart = Ok k /\ shootable k /\
    create_optimization_problem (shooting_discretize any_integrator one_name [] "implicit" k) k 1000 = Ok (n, s, (r, shots)) /\
    parametrised k /\ length (np n) = 10 /\ length (nx n) = 16.
Proof. exact w_limited_cart_shot_closed. Qed.

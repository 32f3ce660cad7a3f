(** Properties of model predictive control. *)
From Coq Require Import String.
From Verif Require Import Base ExprModel LagModel LagSpec SysModel SimModel DataModel OcpModel DiscModel DiscSpec ColSpec ResModel PlantModel PlantSpec MpcModel MpcSpec MpcProofs.
Local Open Scope list_scope.

(** ** C41 *)

(** [run n] with [n] at least 1 goes round exactly [n] times, or up to and including the
    first round that fails; it always ends, with one outcome. *)
Theorem C41_rounds :
  forall E estimate default integrate defaults F w_x w_m points solve breakpoint c n (s : mpc E) r, (1 <= n)%Z ->
    run E estimate default integrate defaults F w_x w_m points solve breakpoint c n s r <->
    outcome (cycle E estimate default integrate defaults F w_x w_m points solve breakpoint c) (Z.to_nat n) s r.
Proof. exact run_rounds. Qed.
Print Assumptions C41_rounds.

Theorem C41_ends :
  forall E estimate default integrate defaults F w_x w_m points solve breakpoint c n (s : mpc E),
    (exists r, run E estimate default integrate defaults F w_x w_m points solve breakpoint c n s r) /\
    forall r r', run E estimate default integrate defaults F w_x w_m points solve breakpoint c n s r ->
                 run E estimate default integrate defaults F w_x w_m points solve breakpoint c n s r' -> r = r'.
Proof. exact run_ends. Qed.
Print Assumptions C41_ends.

(** One round that succeeds: measurement, estimate, parameters, optimisation with the warm
    start, control function of the solution's first element, sent to the plant. *)
Theorem C41_one_round :
  forall E estimate default integrate defaults F w_x w_m points solve breakpoint c (s s' : mpc E),
    cycle E estimate default integrate defaults F w_x w_m points solve breakpoint c s = (s', Ok tt) <->
    breakpoint = Ok tt /\
    round_done estimate (fun f => plant_step default integrate defaults F w_x w_m (g_plant c) (SetFunction f))
      points F solve c s s'.
Proof. exact cycle_ok. Qed.
Print Assumptions C41_one_round.

(** After [n] rounds the counter is [n] higher and the plant [n] samples further. *)
Theorem C41_counts :
  forall E estimate default integrate defaults F w_x w_m points solve breakpoint c n (s s' : mpc E),
    rounds (cycle E estimate default integrate defaults F w_x w_m points solve breakpoint c) n s s' ->
    b_iteration s' = (b_iteration s + n)%nat /\
    (a_t (b_plant s') == a_t (b_plant s) + q_of_nat n * (last (f_points (g_plant c)) 0 * f_t_s (g_plant c)))%Q.
Proof. exact counts. Qed.
Print Assumptions C41_counts.

(** [run 0] is documented to run without end, and goes round once. *)
Theorem C41_indefinite_refuted :
  forall E estimate default integrate defaults F w_x w_m points solve breakpoint c (s : mpc E) r,
    run E estimate default integrate defaults F w_x w_m points solve breakpoint c 0 s r <->
    run E estimate default integrate defaults F w_x w_m points solve breakpoint c 1 s r.
Proof. exact indefinite. Qed.
Print Assumptions C41_indefinite_refuted.

(** Without the debugger at the breakpoint, with a method that returns several results,
    or with a shooting method, no round succeeds. *)
Theorem C41_debugger_refuted :
  forall E estimate default integrate defaults F w_x w_m points solve breakpoint c e, breakpoint = Raise e ->
    forall s : mpc E, exists e', snd (cycle E estimate default integrate defaults F w_x w_m points solve breakpoint c s) = Raise e'.
Proof. exact no_breakpoint. Qed.
Print Assumptions C41_debugger_refuted.

Theorem C41_several_refuted :
  forall E estimate default integrate defaults F w_x w_m points solve breakpoint c,
    (forall x g p u r, solve x g p u = Ok r -> exists l, r = Several l) ->
    forall s : mpc E, exists e', snd (cycle E estimate default integrate defaults F w_x w_m points solve breakpoint c s) = Raise e'.
Proof. exact several_solutions. Qed.
Print Assumptions C41_several_refuted.

Theorem C41_shooting_refuted :
  forall E estimate default integrate defaults F w_x w_m points solve breakpoint c, g_scheme c = Shooting ->
    forall s : mpc E, exists e', snd (cycle E estimate default integrate defaults F w_x w_m points solve breakpoint c s) = Raise e'.
Proof. exact shooting_never. Qed.
Print Assumptions C41_shooting_refuted.

(** A run with a fixed control does not use the control it is given, and fails on a new
    controller. *)
Theorem C41_fixed_control_refuted :
  forall E default integrate defaults F w_x w_m points c u v n (s : mpc E),
    run_fixed_control E default integrate defaults F w_x w_m points c u n s =
    run_fixed_control E default integrate defaults F w_x w_m points c v n s /\
    (b_last s = None -> (0 < n)%nat ->
     snd (run_fixed_control E default integrate defaults F w_x w_m points c u n s) = Raise TypeError).
Proof. exact fixed_control. Qed.
Print Assumptions C41_fixed_control_refuted.

(** With the estimator, every round estimates from the present measurement and sends the
    control function of the last solution, not the control given; without a solution the
    run fails. *)
Theorem C41_fixed_with_estimator :
  forall E estimate default integrate defaults F w_x w_m points c u n (s s' : mpc E),
    run_fixed_control_with_estimator E estimate default integrate defaults F w_x w_m points c u n s = (s', Ok tt) ->
    steps (round_repeated estimate (fun f => plant_step default integrate defaults F w_x w_m (g_plant c) (SetFunction f))
             points F c) n s s'.
Proof. exact fixed_estimated. Qed.
Print Assumptions C41_fixed_with_estimator.
Theorem C41_fixed_with_estimator_refuted :
  forall E estimate default integrate defaults F w_x w_m points c u v n (s : mpc E),
    run_fixed_control_with_estimator E estimate default integrate defaults F w_x w_m points c u n s =
    run_fixed_control_with_estimator E estimate default integrate defaults F w_x w_m points c v n s /\
    (b_last s = None -> (0 < n)%nat -> forall s',
     run_fixed_control_with_estimator E estimate default integrate defaults F w_x w_m points c u n s <> (s', Ok tt)).
Proof. exact fixed_estimated_fresh. Qed.
Print Assumptions C41_fixed_with_estimator_refuted.

(** One round of the tank with the inflow 1, and two rounds "with control 100". *)
Example C41_repeated_ex :
  forall k, cart_method 2 2 = Ok k ->
  let c := tank_mpc_config k in
  let round := cycle unit tank_estimate (fun _ _ => ""%string) euler [] (fun _ q => q) (fun _ => []) (fun _ => []) radau_two
                 (tank_solve (collocation_size k)) (Ok tt) c in
  exists p s s', new_plant (fun _ _ => ""%string) (g_plant c) [4]%Q None None = Ok p /\
    rounds round 1 (mkMpc p None (Some [0; 9]%Q) 0 None tt) s /\
    run_fixed_control_with_estimator unit tank_estimate (fun _ _ => ""%string) euler [] (fun _ q => q) (fun _ => []) (fun _ => [])
      radau_two c [100]%Q 2 s = (s', Ok tt) /\
    map (fun q => (Qred (fst q), map Qred (snd q))) (stored "x" (b_plant s')) =
      [(0, [4]); (1, [5]); (2, [6]); (3, [7]); (4, [8]); (5, [9]); (6, [10])]%Q /\
    b_iteration s' = 3%nat.
Proof. exact tank_repeats. Qed.

(** Two rounds of the tank with the inflow 5 - x. *)
Example C41_ex :
  forall k, cart_method 2 2 = Ok k ->
  let c := tank_mpc_config k in
  let round := cycle unit tank_estimate (fun _ _ => ""%string) euler [] (fun _ q => q) (fun _ => []) (fun _ => []) radau_two
                 (tank_solve (collocation_size k)) (Ok tt) c in
  exists p s, new_plant (fun _ _ => ""%string) (g_plant c) [3]%Q None None = Ok p /\
    rounds round 2 (mkMpc p None (Some [0; 9]%Q) 0 None tt) s /\
    map (fun q => (Qred (fst q), map Qred (snd q))) (stored "x" (b_plant s)) =
      [(0, [3]); (1, [5]); (2, [7]); (3, [5]); (4, [3])]%Q /\
    b_p s = Some [7; 9]%Q /\ b_iteration s = 2%nat /\ b_guess s = Some (repeat (1 * (11 # 10))%Q (collocation_size k)).
Proof. exact tank_runs. Qed.

(** ** C42 *)

(** The next initial guess is the trajectory one element later, times 1.1. *)
Theorem C42_warm_start :
  forall k (z : traj Q), (2 <= k_elements k)%nat -> collocation_shape k z ->
    exists z', collocation_shape k z' /\ next_trajectory z z' /\
      step Collocation k (flatten z) = Ok (map (fun q => q * (11 # 10))%Q (flatten z')).
Proof. exact warm_start. Qed.
Print Assumptions C42_warm_start.

(** So it is not the trajectory itself, as soon as one entry is not zero. *)
Theorem C42_factor_refuted :
  forall k (z : traj Q) g i q, (2 <= k_elements k)%nat -> collocation_shape k z ->
    step Collocation k (flatten z) = Ok g -> nth_error g i = Some q -> ~ (q == 0)%Q ->
    forall z', collocation_shape k z' -> next_trajectory z z' -> ~ Forall2 Qeq g (flatten z').
Proof. exact factor_shows. Qed.
Print Assumptions C42_factor_refuted.

(** With one element there is no guess, and a shooting method has none either. *)
Theorem C42_single_refuted :
  forall k (z : traj Q), k_elements k = 1%nat -> collocation_shape k z ->
    step Collocation k (flatten z) = Raise IndexError.
Proof. exact warm_start_single. Qed.
Print Assumptions C42_single_refuted.

Theorem C42_shooting_refuted :
  forall k v r, shooting_unpack k v = Ok r -> step Shooting k v = Raise AttributeError.
Proof. exact warm_start_shooting. Qed.
Print Assumptions C42_shooting_refuted.

Example C42_ex :
  forall k, cart_method 1 2 = Ok k ->
  exists z g, collocation_shape k z /\ (2 <= k_elements k)%nat /\
    r_x z = [[[0; 1]; [2; 3]]; [[4; 5]; [6; 7]]]%Q /\ r_u z = [[[8]]; [[9]]]%Q /\
    step Collocation k (flatten z) = Ok g /\
    firstn 8 (map Qred g) = map (fun q => Qred (q * (11 # 10))) [4; 5; 6; 7; 4; 5; 6; 7]%Q.
Proof. exact cart_moves. Qed.

(** ** C68 *)

(** Entries of the parameter vector that are not configured to follow the estimate keep
    their first value for ever. *)
Theorem C68_others_kept :
  forall E estimate default integrate defaults F w_x w_m points solve breakpoint c n (s s' : mpc E),
    rounds (cycle E estimate default integrate defaults F w_x w_m points solve breakpoint c) n s s' ->
    match b_p s, b_p s' with
    | None, None => True
    | Some a, Some b => length b = length a /\ forall j, untouched c j -> nth_error b j = nth_error a j
    | _, _ => False
    end.
Proof. exact rounds_parameters. Qed.
Print Assumptions C68_others_kept.

(** After a round the configured entries hold the estimate of this round. *)
Theorem C68_mean_current :
  forall E estimate default integrate defaults F w_x w_m points solve breakpoint c (s s' : mpc E),
    cycle E estimate default integrate defaults F w_x w_m points solve breakpoint c s = (s', Ok tt) -> g_mean c = true ->
    NoDup (map snd (g_mean_indices c)) ->
    (g_covariance c = true -> forall j, In j (map snd (g_mean_indices c)) -> ~ In j (map snd (g_cov_indices c))) ->
    exists x cov, snd (estimate (b_estimator s) (a_t (b_plant s)) (a_measurement (b_plant s)) (a_u (b_plant s))) = Ok (x, cov) /\
      forall i j, In (i, j) (g_mean_indices c) -> exists b v, b_p s' = Some b /\ nth_error b j = Some v /\
        nth_error (if g_include_cost c then x ++ [0%Q] else x) i = Some v.
Proof. exact mean_round. Qed.
Print Assumptions C68_mean_current.

(** The ideal estimator returns the state of the plant if the outputs begin with the
    states and there is no noise. *)
Theorem C68_ideal_estimate :
  forall default integrate defaults F w_x w_m c,
    sized_integrator integrate (length (m_y (f_model c))) -> fitting c -> f_noise c = false -> observes_states c ->
    forall s op s', reached default integrate defaults F w_x w_m c s ->
      plant_step default integrate defaults F w_x w_m c op s = (s', Ok tt) ->
      Forall2 Qeq (fst (ideal_estimate (length (m_x (f_model c))) (a_measurement s'))) (a_x s').
Proof. exact ideal_states. Qed.
Print Assumptions C68_ideal_estimate.

Example C68_ex : forall k,
  observes_states (tank_config 2 [1 # 2; 1]%Q false) /\
  parameters (tank_mpc_config k) [7]%Q [] (Some [0; 9]%Q) (Some [7; 9]%Q).
Proof. exact tank_observes. Qed.

(** ** C69 *)

(** With one value per input and point, the control function is the polynomial through
    these values at the collocation points of the sample. *)
Theorem C69_through_the_values :
  forall points F m degree values a b f,
    (1 < degree)%nat -> length (points degree) = degree -> distinct (points degree) -> ~ (a == b)%Q ->
    length values = (length (m_u m) * degree)%nat ->
    make_control_function points F m degree values a b = Ok f ->
    through (points degree) (length (m_u m)) values a b f.
Proof. exact control_through. Qed.
Print Assumptions C69_through_the_values.

(** With degree one, or with one value for all, it is constant. *)
Theorem C69_constant :
  forall points F m values a b f, length values = length (m_u m) ->
    make_control_function points F m 1 values a b = Ok f -> constant values f.
Proof. exact control_constant. Qed.
Print Assumptions C69_constant.

Theorem C69_one_value :
  forall points F m degree v a b f,
    (1 < degree)%nat -> length (points degree) = degree -> distinct (points degree) -> length (m_u m) <> O ->
    make_control_function points F m degree [v] a b = Ok f -> constant (repeat v (length (m_u m))) f.
Proof. exact control_broadcast. Qed.
Print Assumptions C69_one_value.

(** Controls of degree one for two or more inputs do not fit a method of higher degree. *)
Theorem C69_two_inputs_refuted :
  forall points F m degree values a b,
    (2 <= length (m_u m))%nat -> (2 <= degree)%nat -> length values = length (m_u m) ->
    make_control_function points F m degree values a b = Raise CasadiError.
Proof. exact two_inputs. Qed.
Print Assumptions C69_two_inputs_refuted.

(** At the start of the sample the control is the polynomial at 0, not the first control
    of the solution. *)
Theorem C69_first_control_refuted :
  exists f, make_control_function radau_two (fun _ q => q) tank_model 2 [2; 4]%Q 0 2 = Ok f /\
    match f 0%Q with Ok [u] => (u == 1)%Q | _ => False end /\
    match f ((1 # 3) * 2)%Q with Ok [u] => (u == 2)%Q | _ => False end.
Proof. exact start_of_sample. Qed.
Print Assumptions C69_first_control_refuted.

Example C69_ex :
  length (radau_two 2) = 2%nat /\ distinct (radau_two 2) /\ ~ (0 == 2)%Q /\
  length [2; 4]%Q = (length (m_u tank_model) * 2)%nat /\
  exists f, make_control_function radau_two (fun _ q => q) tank_model 2 [2; 4]%Q 0 2 = Ok f.
Proof. exact radau_fits. Qed.

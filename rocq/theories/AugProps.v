(** Properties of the augmented Lagrangian method. *)
From Coq Require Import String Qabs Qminmax Qpower.
From Verif Require Import Base UtilModel ExprModel ExprProofs NlpModel SysModel SysSpec OcpModel OcpSpec LagSpec DiscModel DiscSpec
  ColSpec AugModel AugSpec AugLoopProofs AugRunProofs AugRelaxProofs AugMoreProofs AugPondProofs.
Local Open Scope list_scope.

(** The pond meets the hypotheses used throughout. *)
Example pond_ready : exists a s, pond_method [] whole = Ok a /\ pond_relaxed [] whole = Ok s /\
    relaxed_equations a = [EBin OSub (EVar 20) (EVar 10)] /\ k_elements (ag_method a) = 2 /\
    transcribable (ag_method a) /\ collocation_points (radau_two (k_degree (ag_method a))) (k_degree (ag_method a)) /\
    (forall F, carries F (radau_two (k_degree (ag_method a))) a [] []) /\
    (forall rule improve n, well_sized a (start_aug (pond_options rule improve n) s None)) /\
    well_given a [] [] None None /\
    (forall calls raw, pond_solve calls = Ok raw -> length raw = collocation_size (ag_method a)).
Proof. exact pond_fits. Qed.

(** ** C44 *)

(** Rule "bounded-increase": call number [i] of the solver, whatever the solver answers, is
    made with each weight equal to its first value times the factor to the power [i], cut
    at the limit. *)
Theorem C44_bounded_increase :
  forall F opts f elements ocp_solve p th guess s st r,
    call_solver F opts f elements false ocp_solve p th guess (s, []) = (st, r) ->
    al_skip_mu opts = false -> al_rule opts = "bounded-increase"%string ->
    (1 <= al_beta opts)%Q -> Forall (fun m => 0 <= m /\ m <= al_mu_max opts)%Q (st_mu s) ->
    forall i c, nth_error (rev (snd st)) i = Some c -> exists m, sc_p c = given_p p ++ m /\
      Forall2 (fun m0 mi => mi == Qmin (al_mu_max opts) (m0 * al_beta opts ^ Z.of_nat i))%Q (st_mu s) m.
Proof. exact increased_calls. Qed.
Print Assumptions C44_bounded_increase.
(** Weights 1, 4, 10: factor 4, limit 10. *)
Example pond_bounded : used (pond_run "bounded-increase" false [1%Q] 3) =
    ([([1%Q], [(0, [0%Q; 0%Q]); (1, [0%Q; 0%Q])]);
      ([4%Q], [(0, [(-1)%Q; (-1)%Q]); (1, [(-1)%Q; (-1)%Q])]);
      ([10%Q], [(0, [0%Q; 0%Q]); (1, [0%Q; 0%Q])])],
     Some ([10%Q], [(0, [0%Q; 0%Q]); (1, [0%Q; 0%Q])])).
Proof. exact pond_increase. Qed.

(** The rules "constant" and "primal-dual", and updates of weights switched off, keep them. *)
Theorem C44_constant :
  forall F opts f elements ocp_solve p th guess s st r,
    call_solver F opts f elements false ocp_solve p th guess (s, []) = (st, r) ->
    al_skip_mu opts = true \/ al_rule opts = "constant"%string \/ al_rule opts = "primal-dual"%string ->
    forall c, In c (snd st) -> sc_p c = given_p p ++ st_mu s.
Proof. exact constant_calls. Qed.
Print Assumptions C44_constant.

(** Whatever the rule and the history, weights within the limit never decrease and stay
    within it, and keep their number. *)
Theorem C44_growth :
  forall F opts f elements ocp_solve p th guess s st r,
    call_solver F opts f elements false ocp_solve p th guess (s, []) = (st, r) ->
    (1 <= al_beta opts)%Q -> Forall (fun m => 0 <= m /\ m <= al_mu_max opts)%Q (st_mu s) ->
    forall c, In c (snd st) -> exists m, sc_p c = given_p p ++ m /\ Forall2 (grows (al_mu_max opts)) (st_mu s) m.
Proof. exact growing_calls. Qed.
Print Assumptions C44_growth.
Theorem C44_growth_each :
  forall F opts f elements p th raw s s' r, update_parameters F opts f elements p th raw s = (s', r) ->
    (1 <= al_beta opts)%Q -> Forall (fun m => 0 <= m /\ m <= al_mu_max opts)%Q (st_mu s) ->
    Forall2 (grows (al_mu_max opts)) (st_mu s) (st_mu s').
Proof. exact update_growth. Qed.
Print Assumptions C44_growth_each.

(** Rule "primal": exactly the weights whose violation did not shrink by the given factor
    are increased. *)
Theorem C44_primal :
  forall F opts f elements p th raw s s' errors,
    update_parameters F opts f elements p th raw s = (s', Ok errors) ->
    al_skip_mu opts = false -> al_rule opts = "primal"%string -> al_improve opts = false ->
    forall l, st_last s = Some l -> length l = length (st_mu s) -> length errors = length (st_mu s) ->
    length (st_mu s') = length (st_mu s) /\
    forall i m e before, nth_error (st_mu s) i = Some m -> nth_error errors i = Some e -> nth_error l i = Some before ->
      exists m', nth_error (st_mu s') i = Some m' /\
        (e <= al_decrease opts * before -> m' == m)%Q /\
        (al_decrease opts * before < e -> m' == Qmin (al_mu_max opts) (m * al_beta opts))%Q.
Proof. exact primal_rule. Qed.
Print Assumptions C44_primal.
Theorem C44_primal_first :
  forall F opts f elements p th raw s s' errors,
    update_parameters F opts f elements p th raw s = (s', Ok errors) ->
    al_skip_mu opts = false -> al_rule opts = "primal"%string -> st_last s = None -> st_mu s' = st_mu s.
Proof. exact primal_first. Qed.
Print Assumptions C44_primal_first.
(** Violations 1, then 1/4: the weight stays. *)
Example pond_kept : used (pond_run "primal" false [1%Q] 3) =
    ([([1%Q], [(0, [0%Q; 0%Q]); (1, [0%Q; 0%Q])]);
      ([1%Q], [(0, [(-1)%Q; (-1)%Q]); (1, [(-1)%Q; (-1)%Q])]);
      ([1%Q], [(0, [(-3 # 4)%Q; (-3 # 4)%Q]); (1, [(-3 # 4)%Q; (-3 # 4)%Q])])],
     Some ([1%Q], [(0, [(-3 # 4)%Q; (-3 # 4)%Q]); (1, [(-3 # 4)%Q; (-3 # 4)%Q])])).
Proof. exact pond_primal. Qed.
(** With only_update_if_improve the same rule increases the weight of the violation that
    shrank from 1 to 1/4, although 1/2 is the factor asked for; and only the multipliers of
    the first collocation point move. *)
Theorem C44_improving_refuted :
    used (pond_run "primal" true [1%Q] 3) =
    ([([1%Q], [(0, [0%Q; 0%Q]); (1, [0%Q; 0%Q])]);
      ([1%Q], [(0, [(-1)%Q; (-1)%Q]); (1, [(-1)%Q; (-1)%Q])]);
      ([4%Q], [(0, [(-3 # 4)%Q; (-1)%Q]); (1, [(-3 # 4)%Q; (-1)%Q])])],
     Some ([4%Q], [(0, [(-3 # 4)%Q; (-1)%Q]); (1, [(-3 # 4)%Q; (-1)%Q])])).
Proof. exact pond_improving. Qed.
Print Assumptions C44_improving_refuted.

(** A weight above the limit is lowered to it, which "never decrease" rules out. *)
Theorem C44_lowered_refuted :
  forall F opts f elements p th raw s s' errors,
    update_parameters F opts f elements p th raw s = (s', Ok errors) ->
    al_skip_mu opts = false -> al_rule opts = "bounded-increase"%string -> (1 <= al_beta opts)%Q -> (0 <= al_mu_max opts)%Q ->
    forall i m, nth_error (st_mu s) i = Some m -> (al_mu_max opts < m)%Q ->
    exists m', nth_error (st_mu s') i = Some m' /\ (m' == al_mu_max opts)%Q /\ (m' < m)%Q.
Proof. exact lowered. Qed.
Print Assumptions C44_lowered_refuted.
Example pond_above : map fst (fst (used (pond_run "bounded-increase" false [20%Q] 2))) = [[20%Q]; [10%Q]].
Proof. exact pond_lowered. Qed.

(** An unknown rule raises ValueError once the multipliers have been updated; the weights
    are untouched. *)
Theorem C44_unknown_rule :
  forall F opts f elements p th raw s s1 errors,
    al_skip_mu opts = false -> ~ In (al_rule opts) ["constant"; "primal"; "primal-dual"; "bounded-increase"]%string ->
    update_parameters F (skipping_weights opts) f elements p th raw s = (s1, Ok errors) ->
    exists s2, update_parameters F opts f elements p th raw s = (s2, Raise ValueError) /\
      st_mu s2 = st_mu s /\ st_nu s2 = st_nu s1 /\ st_nu_tilde s2 = st_nu_tilde s1.
Proof. exact unknown_rule. Qed.
Print Assumptions C44_unknown_rule.
Theorem C44_known_rule :
  forall F opts f elements p th raw s s' errors,
    update_parameters F opts f elements p th raw s = (s', Ok errors) ->
    al_skip_mu opts = true \/ In (al_rule opts) ["constant"; "primal"; "primal-dual"; "bounded-increase"]%string.
Proof. exact known_rule. Qed.
Print Assumptions C44_known_rule.
Example pond_fastest : exists s calls, pond_run "fastest" false [1%Q] 3 = Ok ((s, calls), Raise ValueError) /\
    length calls = 1 /\ st_last s = None /\ option_map lowest (st_nu_tilde s) = Some [(0, [(-1)%Q; (-1)%Q]); (1, [(-1)%Q; (-1)%Q])].
Proof. exact pond_unknown. Qed.

(** Setting the weights: a vector of the right size is taken, a number is repeated, anything
    else raises ValueError and changes nothing. *)
Theorem C44_set_exact : forall v s, length v = length (st_mu s) -> set_mu v s = (set_st_mu v s, Ok tt).
Proof. exact set_mu_exact. Qed.
Print Assumptions C44_set_exact.
Theorem C44_set_scalar : forall v s,
    exists w, set_mu [v] s = (set_st_mu w s, Ok tt) /\ length w = length (st_mu s) /\ Forall (fun m => m == v)%Q w.
Proof. exact set_mu_scalar. Qed.
Print Assumptions C44_set_scalar.
Theorem C44_set_refused : forall v s, length v <> length (st_mu s) -> length v <> 1 -> set_mu v s = (s, Raise ValueError).
Proof. exact set_mu_refused. Qed.
Print Assumptions C44_set_refused.
Example set_two : set_mu [3%Q] (mkAug [1; 2]%Q [] None false None [] []) = (mkAug [3; 3]%Q [] None false None [] [], Ok tt).
Proof. vm_compute. reflexivity. Qed.

(** ** C45 *)

(** One update from the solution [r], read as the trajectory [q]: each multiplier, at each
    collocation point of each element, moves by its weight times the value of its equation
    there; those in use until the next pass stay. *)
Theorem C45_moved :
  forall F points opts a own_p own_theta, respects F -> transcribable (ag_method a) ->
    collocation_points (points (k_degree (ag_method a))) (k_degree (ag_method a)) ->
    carries F (points (k_degree (ag_method a))) a own_p own_theta ->
    forall s p th r q, fitting a own_p own_theta s p th -> collocation_shape (ag_method a) r ->
    reads (ag_method a) (points (k_degree (ag_method a))) r (given_p p ++ st_mu s) (fun el => given_in th el ++ nu_in s el) q ->
    al_skip_compute opts = false ->
    forall s' errors, update_parameters F opts (create_nu_update_func points a) (k_elements (ag_method a)) p th (flatten r) s = (s', Ok errors) ->
    al_skip_nu opts = false -> al_improve opts = false \/ st_last s = None ->
    exists d, st_nu_tilde s' = Some d /\ moved F (points (k_degree (ag_method a))) a q s d /\ st_nu s' = st_nu s.
Proof. exact updated_multipliers. Qed.
Print Assumptions C45_moved.

(** Where the equation holds, its multiplier keeps its value. *)
Theorem C45_unchanged :
  forall F pts a q s new, moved F pts a q s new ->
    forall el j tau i g w old, el < k_elements (ag_method a) -> nth_error pts j = Some tau ->
      nth_error (relaxed_equations a) i = Some g -> nth_error (st_mu s) i = Some w ->
      multiplier (st_nu s) (relaxed_count a) el j i = Some old -> (value_on F (ag_method a) q el tau g == 0)%Q ->
      exists x, multiplier new (relaxed_count a) el j i = Some x /\ (x == old)%Q.
Proof. exact unchanged_multipliers. Qed.
Print Assumptions C45_unchanged.

(** The violations an update returns and stores are the largest absolute values of the
    equations over all collocation points. *)
Theorem C45_violations :
  forall F points opts a own_p own_theta, respects F -> transcribable (ag_method a) ->
    collocation_points (points (k_degree (ag_method a))) (k_degree (ag_method a)) ->
    carries F (points (k_degree (ag_method a))) a own_p own_theta ->
    forall s p th r q, fitting a own_p own_theta s p th -> collocation_shape (ag_method a) r ->
    reads (ag_method a) (points (k_degree (ag_method a))) r (given_p p ++ st_mu s) (fun el => given_in th el ++ nu_in s el) q ->
    al_skip_compute opts = false ->
    forall s' errors, update_parameters F opts (create_nu_update_func points a) (k_elements (ag_method a)) p th (flatten r) s = (s', Ok errors) ->
    largest F (points (k_degree (ag_method a))) a q errors /\ st_last s' = Some errors.
Proof. exact updated_errors. Qed.
Print Assumptions C45_violations.

(** Updates of multipliers switched off. *)
Theorem C45_skipped :
  forall F points opts a own_p own_theta, respects F -> transcribable (ag_method a) ->
    collocation_points (points (k_degree (ag_method a))) (k_degree (ag_method a)) ->
    carries F (points (k_degree (ag_method a))) a own_p own_theta ->
    forall s p th r q, fitting a own_p own_theta s p th -> collocation_shape (ag_method a) r ->
    reads (ag_method a) (points (k_degree (ag_method a))) r (given_p p ++ st_mu s) (fun el => given_in th el ++ nu_in s el) q ->
    al_skip_compute opts = false ->
    forall s' errors, update_parameters F opts (create_nu_update_func points a) (k_elements (ag_method a)) p th (flatten r) s = (s', Ok errors) ->
    al_skip_nu opts = true -> st_nu_tilde s' = st_nu_tilde s /\ st_nu s' = st_nu s.
Proof. exact skipped_multipliers. Qed.
Print Assumptions C45_skipped.

(** After any number of passes a multiplier is its first value plus the sum, over the
    passes, of the weight used times the value of its equation. *)
Theorem C45_history :
  forall F points opts a own_p own_theta, respects F -> transcribable (ag_method a) ->
    collocation_points (points (k_degree (ag_method a))) (k_degree (ag_method a)) ->
    carries F (points (k_degree (ag_method a))) a own_p own_theta ->
    forall p th, well_given a own_p own_theta p th ->
    forall ocp_solve, al_skip_compute opts = false -> al_skip_nu opts = false -> al_improve opts = false ->
    forall passes guess s calls, well_sized a s ->
    al_run F opts (create_nu_update_func points a) (k_elements (ag_method a)) ocp_solve p th guess s calls (map fst passes) ->
    Forall (fun zq => exists r, collocation_shape (ag_method a) r /\ as_raw (fst zq) = flatten r /\
              reads (ag_method a) (points (k_degree (ag_method a))) r (sc_p (as_call (fst zq))) (theta_in (as_call (fst zq))) (snd zq)) passes ->
    forall el j tau i g old, el < k_elements (ag_method a) -> nth_error (points (k_degree (ag_method a))) j = Some tau ->
      nth_error (relaxed_equations a) i = Some g ->
      multiplier (st_nu (take_nu_tilde s)) (relaxed_count a) el j i = Some old ->
      exists x, multiplier (st_nu (take_nu_tilde (last (map as_after (map fst passes)) s))) (relaxed_count a) el j i = Some x /\
        (x == old + accumulated F a el i tau g passes)%Q.
Proof. exact history. Qed.
Print Assumptions C45_history.

(** With only_update_if_improve, from the second pass on, no multiplier beyond the first
    collocation point moves while some violation is positive. *)
Theorem C45_improving_refuted :
  forall F points opts a own_p own_theta, respects F -> transcribable (ag_method a) ->
    let k := ag_method a in let pts := points (k_degree k) in
    collocation_points pts (k_degree k) -> carries F pts a own_p own_theta ->
    forall s p th raw, well_given a own_p own_theta p th -> well_sized a s -> length raw = collocation_size k ->
    al_skip_compute opts = false -> al_skip_nu opts = false -> al_improve opts = true -> st_last s <> None ->
    forall s' errors, update_parameters F opts (create_nu_update_func points a) (k_elements k) p th raw s = (s', Ok errors) ->
    Exists (fun e => 0 < e)%Q errors ->
    forall d d' el j i, st_nu_tilde s = Some d -> st_nu_tilde s' = Some d' -> 1 <= j ->
      multiplier d' (relaxed_count a) el j i = multiplier d (relaxed_count a) el j i.
Proof. exact improving_stuck. Qed.
Print Assumptions C45_improving_refuted.

(** ** C46 *)

(** A run that returns: a chain of passes, each solving the relaxed problem with the current
    weights and multipliers, starting from the last solution, and updating; a further pass
    only while some violation is not below the tolerance; the solution returned is the last. *)
Theorem C46_passes :
  forall F opts f elements ocp_solve p th guess s st v,
    call_solver F opts f elements false ocp_solve p th guess (s, []) = (st, Ok v) ->
    exists steps z, al_run F opts f elements ocp_solve p th guess s [] (steps ++ [z]) /\
      snd st = rev (map as_call (steps ++ [z])) /\ fst st = as_after z /\ fst (fst v) = as_raw z /\
      1 <= length (snd st) <= al_max_iter opts /\
      (length (snd st) < al_max_iter opts -> below (al_tol opts) (as_errors z)).
Proof. exact run_passes. Qed.
Print Assumptions C46_passes.

(** However it ends, the solver is called at most max_iter times. *)
Theorem C46_calls :
  forall F opts f elements ocp_solve p th no_update guess s st r,
    call_solver F opts f elements no_update ocp_solve p th guess (s, []) = (st, r) -> length (snd st) <= al_max_iter opts.
Proof. exact run_calls. Qed.
Print Assumptions C46_calls.

(** Stopping early means that on the trajectory returned every relaxed equation is within
    the tolerance at every collocation point. *)
Theorem C46_tolerance :
  forall F points opts a own_p own_theta, respects F -> transcribable (ag_method a) ->
    collocation_points (points (k_degree (ag_method a))) (k_degree (ag_method a)) ->
    carries F (points (k_degree (ag_method a))) a own_p own_theta ->
    forall p th, well_given a own_p own_theta p th ->
    forall ocp_solve, (forall calls raw, ocp_solve calls = Ok raw -> length raw = collocation_size (ag_method a)) ->
    forall guess s st v r q c, al_skip_compute opts = false -> well_sized a s ->
    call_solver F opts (create_nu_update_func points a) (k_elements (ag_method a)) false ocp_solve p th guess (s, []) = (st, Ok v) ->
    length (snd st) < al_max_iter opts -> hd_error (snd st) = Some c ->
    collocation_shape (ag_method a) r -> fst (fst v) = flatten r ->
    reads (ag_method a) (points (k_degree (ag_method a))) r (sc_p c) (theta_in c) q ->
    forall g el tau, In g (relaxed_equations a) -> el < k_elements (ag_method a) -> In tau (points (k_degree (ag_method a))) ->
      (Qabs (value_on F (ag_method a) q el tau g) < al_tol opts)%Q.
Proof. exact run_tolerance. Qed.
Print Assumptions C46_tolerance.
(** The pond is within the tolerance 1/10 after three passes of at most twenty. *)
Example pond_stops : length (fst (used (pond_run "bounded-increase" false [1%Q] 20))) = 3.
Proof. vm_compute. reflexivity. Qed.

(** As constructed by default (no update after solving) a run solves the same problem
    max_iter times and changes neither weights nor multipliers. *)
Theorem C46_without_update :
  forall F opts f elements ocp_solve p th n guess last s calls st v,
    iterations F opts f elements true ocp_solve p th n guess last (s, calls) = (st, Ok v) -> n <> 0 ->
    exists new theta_k, snd st = new ++ calls /\ length new = n /\ fst st = take_nu_tilde s /\
      join_nu_to_theta th (st_nu (take_nu_tilde s)) = Ok theta_k /\
      Forall (fun c => sc_p c = given_p p ++ st_mu s /\ sc_theta c = theta_k) new /\
      snd v = theta_k /\ snd (fst v) = given_p p ++ st_mu s.
Proof. exact iterations_fixed. Qed.
Print Assumptions C46_without_update.

(** max_iter = 0: no call, no change, and UnboundLocalError instead of the ValueError the
    code means to raise. *)
Theorem C46_no_iterations_refuted :
  forall F opts f elements ocp_solve p th no_update guess s calls, al_max_iter opts = 0 ->
    call_solver F opts f elements no_update ocp_solve p th guess (s, calls) = ((s, calls), Raise UnboundLocalError).
Proof. exact run_never. Qed.
Print Assumptions C46_no_iterations_refuted.

(** A run that fails, fails in one pass; everything up to it is as in a run that returns. *)
Theorem C46_failure :
  forall F opts f elements ocp_solve p th n guess last s calls st e,
    iterations F opts f elements false ocp_solve p th n guess last (s, calls) = (st, Raise e) ->
    (n = 0 /\ last = None /\ e = UnboundLocalError /\ st = (s, calls)) \/
    exists steps s0 guess0, al_run F opts f elements ocp_solve p th guess s calls steps /\ length steps < n /\
      s0 = take_nu_tilde (match rev steps with z :: _ => as_after z | [] => s end) /\
      guess0 = (match rev steps with z :: _ => Some (as_raw z) | [] => guess end) /\
      ((join_nu_to_theta th (st_nu s0) = Raise e /\ st = (s0, rev (map as_call steps) ++ calls)) \/
       exists theta_k, join_nu_to_theta th (st_nu s0) = Ok theta_k /\
         let c := mkSub guess0 (given_p p ++ st_mu s0) theta_k in
         let made := c :: rev (map as_call steps) ++ calls in
         ((ocp_solve made = Raise e /\ st = (s0, made)) \/
          exists raw s1, ocp_solve made = Ok raw /\ update_parameters F opts f elements p th raw s0 = (s1, Raise e) /\ st = (s1, made))).
Proof. exact run_failed. Qed.
Print Assumptions C46_failure.

(** With parameters of the caller's own, those returned are the ones of the last call. *)
Theorem C46_returned :
  forall F opts f elements ocp_solve p th guess s st v,
    call_solver F opts f elements false ocp_solve (Some p) (Some th) guess (s, []) = (st, Ok v) ->
    exists c, hd_error (snd st) = Some c /\ snd (fst v) = sc_p c /\ snd v = sc_theta c.
Proof. exact run_returned. Qed.
Print Assumptions C46_returned.
(** Without, the attributes themselves are returned, which the update has already changed in
    place: the last call was made with weight 1 and multipliers -1. *)
Theorem C46_returned_refuted :
    used (pond_run "primal" true [1%Q] 2) =
    ([([1%Q], [(0, [0%Q; 0%Q]); (1, [0%Q; 0%Q])]);
      ([1%Q], [(0, [(-1)%Q; (-1)%Q]); (1, [(-1)%Q; (-1)%Q])])],
     Some ([4%Q], [(0, [(-3 # 4)%Q; (-1)%Q]); (1, [(-3 # 4)%Q; (-1)%Q])])).
Proof. exact pond_returned. Qed.
Print Assumptions C46_returned_refuted.

(** ** C47 *)

(** The expression added to the running cost has the value nu'g + 1/2 sum of mu_i g_i^2. *)
Theorem C47_penalty : forall F env nu mu g,
    (eval F env (penalty nu mu g) == penalty_value (map env nu) (map env mu) (map (eval F env) g))%Q.
Proof. exact penalty_is. Qed.
Print Assumptions C47_penalty.
(** It vanishes where all equations hold; for positive weights it is a sum of squares plus a
    constant, which is its least value and is attained. *)
Theorem C47_vanishes : forall nu mu g, Forall (fun x => x == 0)%Q g -> (penalty_value nu mu g == 0)%Q.
Proof. exact penalty_zero. Qed.
Print Assumptions C47_vanishes.
Theorem C47_squares : forall nu mu g, length nu = length g -> length mu = length g -> Forall (fun m => 0 < m)%Q mu ->
    (penalty_value nu mu g == half_squares nu mu g + least_penalty nu mu)%Q.
Proof. exact penalty_squares. Qed.
Print Assumptions C47_squares.
Theorem C47_least : forall nu mu g, length nu = length g -> length mu = length g -> Forall (fun m => 0 < m)%Q mu ->
    (least_penalty nu mu <= penalty_value nu mu g)%Q.
Proof. exact penalty_least. Qed.
Print Assumptions C47_least.
Theorem C47_attained : forall nu mu, length nu = length mu -> Forall (fun m => 0 < m)%Q mu ->
    (penalty_value nu mu (map (fun nm => - (fst nm / snd nm)) (combine nu mu)) == least_penalty nu mu)%Q.
Proof. exact penalty_attained. Qed.
Print Assumptions C47_attained.
Example penalty_two : (penalty_value [1; 2] [4; 2] [3; -1] == 20)%Q /\ (least_penalty [1; 2] [4; 2] == - (9 # 8))%Q.
Proof. split; reflexivity. Qed.

(** Relaxing algebraic equations: they and the variables chosen leave the problem, the
    variables become controls with their bounds, the penalty is added to the running cost,
    and nothing else of the problem changes but the guess of the controls. *)
Theorem C47_algebraic :
  forall F same opts idx vidx s s',
    (forall a b, same a b = true <-> a = b) ->
    NoDup (m_y (o_model (rx_problem s))) -> NoDup (m_alg (o_model (rx_problem s))) ->
    relax_algebraic_equations same opts idx vidx s = (s', Ok tt) ->
    let o := rx_problem s in
    exists g y lo hi nu mu L' guess,
      picks (m_alg (o_model o)) idx g /\ picks (m_y (o_model o)) vidx y /\
      picks (o_y_min o) vidx lo /\ picks (o_y_max o) vidx hi /\
      multiplied opts (length g) nu mu s s' /\ with_penalty F nu mu g (o_L o) L' /\
      rx_alg s' = rx_alg s ++ g /\ rx_eq s' = rx_eq s /\
      rx_problem s' = without_algebraic idx vidx
        (set_o_u_guess guess (with_controls y lo hi (set_o_L L' (with_parameters mu o)))).
Proof. exact relax_algebraic_ok. Qed.
Print Assumptions C47_algebraic.

(** The guess of the controls gets the guesses at the places of the relaxed equations. *)
Theorem C47_guess :
  forall same opts idx vidx s s',
    (forall a b, same a b = true <-> a = b) ->
    NoDup (m_y (o_model (rx_problem s))) -> NoDup (m_alg (o_model (rx_problem s))) ->
    relax_algebraic_equations same opts idx vidx s = (s', Ok tt) ->
    guess_moved idx (rx_problem s) (o_u_guess (rx_problem s')).
Proof. exact relax_algebraic_guess. Qed.
Print Assumptions C47_guess.
(** So a variable with another place than its equation gets the guess of another variable:
    variable 21, guessed 9, becomes a control guessed 7. *)
Theorem C47_guess_refuted : exists o s', guessed_pond = Ok o /\ m_y (o_model o) = [20; 21] /\ o_y_guess o = Some [7; 9]%Q /\
    relax_algebraic_equations same_expr (pond_options "constant" false 3) [0] [1] (start_relaxing o 100) = (s', Ok tt) /\
    m_u (o_model (rx_problem s')) = [30; 21] /\ o_u_guess (rx_problem s') = Some [1; 7]%Q.
Proof. exact guess_of_another. Qed.
Print Assumptions C47_guess_refuted.

(** Relaxing time equalities: they leave the problem together with their times. *)
Theorem C47_time_equalities :
  forall F opts idx s s', NoDup idx -> relax_time_equalities opts idx s = (s', Ok tt) ->
    let o := rx_problem s in
    exists g nu mu L',
      picks (o_g_eq o) idx g /\ multiplied opts (length g) nu mu s s' /\ with_penalty F nu mu g (o_L o) L' /\
      rx_alg s' = rx_alg s /\ rx_eq s' = rx_eq s ++ g /\
      rx_problem s' = set_o_when_eq (others idx (o_when_eq o)) (set_o_g_eq (others idx (o_g_eq o))
        (set_o_L L' (with_parameters mu o))).
Proof. exact relax_equalities_ok. Qed.
Print Assumptions C47_time_equalities.

(** Relaxing the bounds of states: each bounded state gets a control with its bounds, held
    to the state by a penalty; afterwards no state has a bound. *)
Theorem C47_states :
  forall F opts js s s', NoDup js -> crun (relax_state opts) js s = (s', Ok tt) ->
    let o := rx_problem s in
    let idx := filter (limited o) js in
    exists lo hi x y nu mu L',
      picks (o_x_min o) idx lo /\ picks (o_x_max o) idx hi /\ picks (m_x (o_model o)) idx x /\
      length y = length idx /\ NoDup (y ++ nu ++ mu) /\
      Forall (fun v => rx_next s <= v < rx_next s')%nat y /\ (rx_next s <= rx_next s')%nat /\
      (idx <> [] -> o_u_guess o = None) /\
      multiplied opts (length idx) nu mu s s' /\ with_penalty F nu mu (copies y x) (o_L o) L' /\
      rx_alg s' = rx_alg s ++ copies y x /\ rx_eq s' = rx_eq s /\
      rx_problem s' = set_o_x_min (open_at NInf idx (o_x_min o)) (set_o_x_max (open_at PInf idx (o_x_max o))
        (with_controls y lo hi (set_o_L L' (with_parameters mu o)))).
Proof. exact relax_states_ok. Qed.
Print Assumptions C47_states.
Theorem C47_states_open :
  forall opts s s' n,
    length (m_x (o_model (rx_problem s))) = n -> length (o_x_min (rx_problem s)) = n -> length (o_x_max (rx_problem s)) = n ->
    relax_states_constraints opts s = (s', Ok tt) ->
    o_x_min (rx_problem s') = repeat NInf n /\ o_x_max (rx_problem s') = repeat PInf n.
Proof. exact states_open. Qed.
Print Assumptions C47_states_open.

(** All relaxations of the constructor together. *)
Theorem C47_relaxed :
  forall F same points opts rq o c s',
    (forall a b, same a b = true <-> a = b) -> NoDup (m_y (o_model o)) -> NoDup (m_alg (o_model o)) ->
    NoDup (rq_equalities rq) -> older o c ->
    al_skip_initialize opts = false -> al_skip_parametrize opts = false ->
    (0 < al_degree opts)%nat -> length (points (al_degree opts)) = al_degree opts -> distinct (points (al_degree opts)) ->
    relax same points opts rq (start_relaxing o c) = (s', Ok tt) ->
    exists ga ge x y,
      picks (m_alg (o_model o)) (wanted o rq) ga /\ picks (o_g_eq o) (rq_equalities rq) ge /\
      picks (m_x (o_model o)) (if rq_states rq then filter (limited o) (seq 0 (length (m_x (o_model o)))) else []) x /\
      length y = length x /\ NoDup y /\ Forall (fun v => c <= v)%nat y /\
      relaxes F (points (al_degree opts)) (al_mu_0 opts) (ga ++ ge ++ copies y x) o s' /\
      rx_alg s' = ga ++ copies y x /\ rx_eq s' = ge.
Proof. exact relax_ok. Qed.
Print Assumptions C47_relaxed.
(** The problem then prepared by a direct method carries weights and multipliers the way
    the updates need, unless time equalities and bounds of states are relaxed together. *)
Theorem C47_carried :
  forall F same points opts rq o c s d x_c x_c0 first o' k vars,
    (forall a b, same a b = true <-> a = b) -> NoDup (m_y (o_model o)) -> NoDup (m_alg (o_model o)) ->
    NoDup (rq_equalities rq) -> older o c -> o_p_opt o = [] -> o_theta_opt o = [] ->
    al_skip_initialize opts = false -> al_skip_parametrize opts = false ->
    0 < al_degree opts -> length (points (al_degree opts)) = al_degree opts -> distinct (points (al_degree opts)) ->
    rq_equalities rq = [] \/ rq_states rq = false ->
    relax same points opts rq (start_relaxing o c) = (s, Ok tt) ->
    direct_prepare points d x_c x_c0 first (rx_problem s) = (o', Ok tt) -> k_problem k = o' -> NoDup vars ->
    carries F (points (al_degree opts)) (mkAugmented k vars (rx_alg s) (rx_eq s) (rx_mu_sym s) (rx_nu_pol s))
            (m_p (o_model o)) (m_theta (o_model o)) /\
    rx_mu s = repeat (al_mu_0 opts) (length (rx_alg s ++ rx_eq s)) /\ rx_n s = length (rx_alg s ++ rx_eq s).
Proof. exact relaxed_carries. Qed.
Print Assumptions C47_carried.
(** When they are, the updates move each multiplier by the value of another equation: the
    penalties are in the order of [rx_eq ++ rx_alg], the updates in that of [rx_alg ++ rx_eq]. *)
Theorem C47_order_refuted : exists o s, pond_with steady = Ok o /\ pond_relaxed steady mixed = Ok s /\
    older o 100 /\ rq_equalities mixed <> [] /\ rq_states mixed = true /\
    relaxes (fun _ x => x) (radau_two 2) 1 (rx_eq s ++ rx_alg s) o s /\
    ~ relaxes (fun _ x => x) (radau_two 2) 1 (rx_alg s ++ rx_eq s) o s.
Proof. exact mixed_order. Qed.
Print Assumptions C47_order_refuted.

(** Relaxing all algebraic equations (the default) and some time equality never works: what
    decides whether there are time equalities to relax looks at the algebraic equations. *)
Theorem C47_all_and_equalities_refuted :
  forall same points opts rq o c,
    (forall a b, same a b = true <-> a = b) -> NoDup (m_y (o_model o)) -> NoDup (m_alg (o_model o)) ->
    length (m_alg (o_model o)) = length (m_y (o_model o)) ->
    rq_algebraic rq = None -> rq_algebraic_var rq = None -> rq_equalities rq <> [] ->
    exists s e, relax same points opts rq (start_relaxing o c) = (s, Raise e).
Proof. exact all_and_equalities. Qed.
Print Assumptions C47_all_and_equalities_refuted.
Example steady_pond : forall points opts, exists o s e, pond_with steady = Ok o /\
    relax same_expr points opts (mkRequest None None [0] false) (start_relaxing o 100) = (s, Raise e).
Proof. exact pond_equalities. Qed.

(** Bounds of states are relaxed only in problems without a guess for the controls. *)
Theorem C47_states_guess :
  forall opts s s', relax_states_constraints opts s = (s', Ok tt) ->
    (exists i, i < length (m_x (o_model (rx_problem s))) /\ limited (rx_problem s) i = true) -> o_u_guess (rx_problem s) = None.
Proof. exact states_guess. Qed.
Print Assumptions C47_states_guess.

(** Degree and number of elements: those given for the solver, else those of the options;
    the solver is made with them.  Different values for the solver and as keyword are refused. *)
Theorem C47_solver_options :
  forall same points solver opts rq nu deg kdeg els kels s s' st k opts',
    new_augmented same points solver opts rq nu deg kdeg els kels s = (s', Ok (st, k, opts')) ->
    al_degree opts' = match deg with Some d => d | None => al_degree opts end /\
    al_elements opts' = match els with Some e => e | None => al_elements opts end /\
    solver (rx_problem s') (al_degree opts') (al_elements opts') = Ok k.
Proof. exact solver_options. Qed.
Print Assumptions C47_solver_options.
Theorem C47_conflicting_options :
  forall same points solver opts rq nu deg kdeg els kels s s1,
    relax same points opts rq s = (s1, Ok tt) ->
    (exists a b, a <> b /\ (deg = Some a /\ kdeg = Some b \/ els = Some a /\ kels = Some b)) ->
    new_augmented same points solver opts rq nu deg kdeg els kels s = (s1, Raise ValueError).
Proof. exact conflicting_options. Qed.
Print Assumptions C47_conflicting_options.
(** Given as keywords only, degree and number of elements have no effect. *)
Theorem C47_keyword_refuted :
  forall same points solver opts rq nu kdeg kels s,
    new_augmented same points solver opts rq nu None kdeg None kels s =
    new_augmented same points solver opts rq nu None None None None s.
Proof. exact keyword_ignored. Qed.
Print Assumptions C47_keyword_refuted.

(** A degree given for the solver only: the method ends up with it, but its multipliers have
    the size of the degree it had before. *)
Theorem C47_solver_degree_refuted :
  forall same points solver opts rq d els s s' st k opts',
    new_augmented same points solver opts rq None (Some d) None els None s = (s', Ok (st, k, opts')) ->
    al_degree opts' = d /\
    forall el v, dget Nat.eqb el (st_nu st) = Some v -> length v = rx_n s' * al_degree opts.
Proof. exact solver_degree. Qed.
Print Assumptions C47_solver_degree_refuted.

(** Properties of the results of the augmented Lagrangian method. *)
From Coq Require Import String.
From Verif Require Import Base UtilModel ExprModel ExprProofs SysModel OcpModel OcpSpec DataModel DataSpec DiscModel DiscSpec
  ColSpec ColTopProofs ResModel ResSpec AugModel AugSpec AugPondProofs AlrModel AlrSpec AlrProofs AlrRunProofs AlrMoreProofs.
Local Open Scope list_scope.
Local Open Scope nat_scope.

(** ** C87: what a result of the augmented Lagrangian method holds *)

(** The result is the one of the relaxed problem's solver with three entries more: the
    multipliers in use and the two kinds of violations kept, each at the collocation points
    of every element, beside the times of those points. *)
Theorem C87_created :
  forall points opts evaluated sch k names x_cost s raw x_0 args args' r0 n n_alg n_eq,
    agreeing opts k -> length (points (k_degree k)) = k_degree k -> k_degree k <> 0 -> k_elements k <> 0 ->
    reportable k n n_alg n_eq s ->
    create_optimization_result points evaluated sch k names x_cost raw x_0 args = (args', Ok r0) ->
    exists r, al_result points opts evaluated sch k names x_cost s raw x_0 args = (args', Ok (r, st_last s)) /\
      alike r r0 /\ map fst (w_other r) = additions /\
      (forall el j i, el < k_elements k -> j < k_degree k ->
         (i < n -> stored r "nu" el j i = multiplier (st_nu s) n el j i) /\
         (i < n_alg -> stored r "alg_violation" el j i = kept (st_alg s) el j i) /\
         (i < n_eq -> stored r "eq_violation" el j i = kept (st_eq s) el j i)) /\
      (forall name el j tau, In name additions -> el < k_elements k -> nth_error (points (k_degree k)) j = Some tau ->
         exists t, stored_time r name el j = Some t /\ (t == time_in k el tau)%Q).
Proof. exact al_created. Qed.
Print Assumptions C87_created.

(** A run with updates: the result has the trajectory of the last call of the solver, the
    multipliers that call was made with, and the values of the relaxed equations on that
    trajectory; the error is the largest of them in absolute value. *)
Theorem C87_solved :
  forall F points opts a own_p own_theta evaluated names x_cost, respects F -> transcribable (ag_method a) ->
    collocation_points (points (k_degree (ag_method a))) (k_degree (ag_method a)) ->
    carries F (points (k_degree (ag_method a))) a own_p own_theta -> agreeing opts (ag_method a) ->
    forall p th, well_given a own_p own_theta p th ->
    forall ocp_solve, (forall calls raw, ocp_solve calls = Ok raw -> length raw = collocation_size (ag_method a)) ->
    forall guess x_0 s st r e, al_skip_compute opts = false -> well_sized a s ->
    al_solve points opts evaluated Collocation (ag_method a) names x_cost F (create_nu_update_func points a) false
      ocp_solve p th guess x_0 (s, []) = (st, Ok (r, e)) ->
    exists c raw, hd_error (snd st) = Some c /\ ocp_solve (snd st) = Ok raw /\
      (al_improve opts = false ->
       forall el j i, el < k_elements (ag_method a) -> j < k_degree (ag_method a) -> i < relaxed_count a ->
         stored r "nu" el j i = nth_error (theta_in c el) (length own_theta + (j * relaxed_count a + i))) /\
      forall z q, collocation_shape (ag_method a) z -> raw = flatten z ->
        reads (ag_method a) (points (k_degree (ag_method a))) z (sc_p c) (theta_in c) q ->
        w_x r = states_of Collocation z /\ w_y r = r_y z /\
        reports F (ag_method a) (points (k_degree (ag_method a))) q r "alg_violation" (ag_alg a) /\
        reports F (ag_method a) (points (k_degree (ag_method a))) q r "eq_violation" (ag_eq a) /\
        exists errors, e = Some errors /\ largest F (points (k_degree (ag_method a))) a q errors.
Proof. exact solved. Qed.
Print Assumptions C87_solved.
(** The pond meets the hypotheses.  After two calls: the second was made with multipliers
    -1, and its outflow exceeds the level by 1/4. *)
Example C87_pond : (exists a s, pond_method [] whole = Ok a /\ pond_relaxed [] whole = Ok s /\
    transcribable (ag_method a) /\ collocation_points (radau_two (k_degree (ag_method a))) (k_degree (ag_method a)) /\
    (forall F, carries F (radau_two (k_degree (ag_method a))) a [] []) /\
    (forall rule n, agreeing (pond_options rule false n) (ag_method a) /\
       well_sized a (start_violations (pond_options rule false n) 1 0 (start_aug (pond_options rule false n) s None))) /\
    well_given a [] [] None None /\
    (forall calls raw, pond_solve calls = Ok raw -> length raw = collocation_size (ag_method a))) /\
    shown (pond_result false false "bounded-increase" 2) =
    ([("nu"%string, ([[[(-1)%Q]; [(-1)%Q]]; [[(-1)%Q]; [(-1)%Q]]], [[(2 # 3)%Q; 2%Q]; [(8 # 3)%Q; 4%Q]]));
      ("alg_violation"%string, ([[[(1 # 4)%Q]; [(1 # 4)%Q]]; [[(1 # 4)%Q]; [(1 # 4)%Q]]], [[(2 # 3)%Q; 2%Q]; [(8 # 3)%Q; 4%Q]]));
      ("eq_violation"%string, ([[[]; []]; [[]; []]], [[(2 # 3)%Q; 2%Q]; [(8 # 3)%Q; 4%Q]]))], Some [(1 # 4)%Q]).
Proof.
  split; [|exact pond_updated]. exists pond_a, pond_s. split; [exact pond_a_is|]. split; [exact pond_s_is|].
  split; [exact pond_transcribable|]. split; [exact radau_two_points|]. split; [exact pond_carries|].
  split; [intros rule n; split; [split; reflexivity | exact (pond_sized rule false n)]|]. split; [exact pond_given | exact pond_solved].
Qed.

(** The result holds the parameters of the last call and the initial state given to
    [solve]. *)
Theorem C87_parameters :
  forall points opts evaluated sch k names x_cost F f ocp_solve p th guess x_0 s st r e,
    o_p_opt (k_problem k) = [] -> o_theta_opt (k_problem k) = [] ->
    al_solve points opts evaluated sch k names x_cost F f false ocp_solve (Some p) (Some th) guess x_0 (s, []) = (st, Ok (r, e)) ->
    exists c, hd_error (snd st) = Some c /\ w_p r = sc_p c /\ w_theta r = sc_theta c /\ w_x_0 r = x_0.
Proof. exact solved_parameters. Qed.
Print Assumptions C87_parameters.
(** The second call on the pond: penalty 4 and multipliers -1. *)
Example C87_pond_parameters :
    option_map (fun v => (map Qred (fst (fst (fst v))), map (fun kv => (fst kv, map Qred (snd kv))) (snd (fst (fst v))), snd (fst v))) pond_parameters =
    Some ([4%Q], [(0, [(-1)%Q; (-1)%Q]); (1, [(-1)%Q; (-1)%Q])], [2%Q]) /\
    match pond_parameters with Some ((p, t, _), c) => (p, t) = c | None => False end /\
    match pond_method [] whole with Ok a => o_p_opt (k_problem (ag_method a)) = [] /\ o_theta_opt (k_problem (ag_method a)) = [] | Raise _ => False end.
Proof. split; [vm_compute; reflexivity|]. split; [vm_compute; reflexivity | vm_compute; split; reflexivity]. Qed.

(** The data set of the result has the entries of the problem as before and the three others,
    point by point. *)
Theorem C87_dataset :
  forall points opts evaluated sch k names x_cost default s raw x_0 args args' r0 r e n n_alg n_eq,
    agreeing opts k -> length (points (k_degree k)) = k_degree k -> k_degree k <> 0 ->
    reportable k n n_alg n_eq s ->
    create_optimization_result points evaluated sch k names x_cost raw x_0 args = (args', Ok r0) ->
    complete r0 -> w_elements r0 = k_elements k ->
    al_result points opts evaluated sch k names x_cost s raw x_0 args = (args', Ok (r, e)) ->
    exists d, to_dataset default r = Ok d /\ consistent d /\ dkeys d = reserved ++ additions /\
      (forall name values times, In (name, (values, times)) (w_other r) -> contents name d = Some (samples (k_elements k) times values)) /\
      forall key l, In key reserved -> expected r0 key l -> contents key d = Some l.
Proof. exact al_dataset. Qed.
Print Assumptions C87_dataset.

(** As constructed by default, without updates after solving, a result gives zero for every
    violation and no error, whatever the solution. *)
Theorem C87_violations_without_update_refuted :
  forall points opts evaluated sch k names x_cost F f ocp_solve p th guess x_0 n_alg n_eq s st r e,
    st_last s = None ->
    al_solve points opts evaluated sch k names x_cost F f true ocp_solve p th guess x_0 (start_violations opts n_alg n_eq s, []) = (st, Ok (r, e)) ->
    e = None /\
    (forall name el j i v, In name ["alg_violation"; "eq_violation"]%string -> stored r name el j i = Some v -> v = 0%Q) /\
    (agreeing opts k -> forall el j i, el < k_elements k -> j < k_degree k ->
       stored r "alg_violation" el j i = (if i <? n_alg then Some 0%Q else None) /\
       stored r "eq_violation" el j i = (if i <? n_eq then Some 0%Q else None)).
Proof. exact no_updates. Qed.
Print Assumptions C87_violations_without_update_refuted.
(** One call on the pond, whose outflow is 1 below the level: zero without the update, -1
    with it. *)
Example C87_pond_default : shown (pond_result true false "bounded-increase" 1) =
    ([("nu"%string, ([[[0%Q]; [0%Q]]; [[0%Q]; [0%Q]]], [[(2 # 3)%Q; 2%Q]; [(8 # 3)%Q; 4%Q]]));
      ("alg_violation"%string, ([[[0%Q]; [0%Q]]; [[0%Q]; [0%Q]]], [[(2 # 3)%Q; 2%Q]; [(8 # 3)%Q; 4%Q]]));
      ("eq_violation"%string, ([[[]; []]; [[]; []]], [[(2 # 3)%Q; 2%Q]; [(8 # 3)%Q; 4%Q]]))], None) /\
    shown (pond_result false false "bounded-increase" 1) =
    ([("nu"%string, ([[[0%Q]; [0%Q]]; [[0%Q]; [0%Q]]], [[(2 # 3)%Q; 2%Q]; [(8 # 3)%Q; 4%Q]]));
      ("alg_violation"%string, ([[[(-1)%Q]; [(-1)%Q]]; [[(-1)%Q]; [(-1)%Q]]], [[(2 # 3)%Q; 2%Q]; [(8 # 3)%Q; 4%Q]]));
      ("eq_violation"%string, ([[[]; []]; [[]; []]], [[(2 # 3)%Q; 2%Q]; [(8 # 3)%Q; 4%Q]]))], Some [1%Q]).
Proof. exact pond_not_updated. Qed.

(** With only_update_if_improve the multipliers reported are not those the solution was
    computed with: the update has changed them in place. *)
Theorem C87_multipliers_in_place_refuted :
  exists calls r e c, pond_result false true "primal" 2 = Ok (calls, (r, e)) /\ hd_error calls = Some c /\
    match sc_theta c with (0, v) :: _ => map Qred v | _ => [] end = [(-1)%Q; (-1)%Q] /\
    option_map Qred (stored r "nu" 0 0 0) = Some (-3 # 4)%Q /\ option_map Qred (stored r "nu" 0 1 0) = Some (-1)%Q.
Proof. exact pond_in_place. Qed.
Print Assumptions C87_multipliers_in_place_refuted.

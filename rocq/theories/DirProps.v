(** The direct method with collocation solves the problem of the user. *)
From Coq Require Import String Qabs.
From Verif Require Import Base BaseProofs UtilModel ExprModel ExprProofs NlpModel NlpSpec SysModel SysSpec
  OcpModel OcpSpec LagModel LagSpec DiscModel DiscSpec ColSpec DirSpec DirTopProofs DirExProofs.
Local Open Scope list_scope.
Local Open Scope nat_scope.

(** The prepared problem is the problem of the user in which every control is the
    polynomial of the lowest degree through its parameters, with one more state, from zero,
    whose derivative is the running cost and which is added to the final cost.  Nothing
    else changes. *)
Theorem C67_prepared : forall F points d x_c x_c0 first o o',
    respects F -> 0 < d -> collocation_points (points d) d ->
    direct_prepare points d x_c x_c0 first o = (o', Ok tt) -> prepared F (points d) x_c x_c0 o o'.
Proof. exact w_C67_prepared. Qed.
Print Assumptions C67_prepared.

(** Parameters stand for exactly one polynomial per control. *)
Theorem C67_controls : forall points d n par, collocation_points (points d) d -> length par = d * n ->
    (exists c, through (points d) n par c) /\
    forall c c' i t, through (points d) n par c -> through (points d) n par c' -> i < n -> (poly (c i) t == poly (c' i) t)%Q.
Proof. exact w_C67_controls. Qed.
Print Assumptions C67_controls.

(** For distinct points there is exactly one rule that integrates the derivatives of all
    polynomials of the degree of the transcription exactly. *)
Theorem C67_rule : forall pts d, collocation_points pts d ->
    (exists b, exact_rule pts b) /\
    forall b b' j, exact_rule pts b -> exact_rule pts b' -> (nth j b 0 == nth j b' 0)%Q.
Proof. exact w_C67_rule. Qed.
Print Assumptions C67_rule.

(** The feasible points of the nonlinear program are the collocated trajectories of the
    problem of the user, within bounds, whose cost state accumulates the running cost. *)
Theorem C67_feasible : forall F points dfun k c0 nl s r o x_c x_c0 first l,
    respects F -> direct_setting points dfun k c0 nl s r o x_c x_c0 first -> o_L o = [l] ->
    forall env q c, describes k (points (k_degree k)) env s r q ->
      followed o (k_elements k) (points (k_degree_control k)) q c ->
      (feasible F env nl <->
       bounded k env r /\ user_collocated F o (k_elements k) q c (points (k_degree k)) /\
       accumulates F o (k_elements k) q c (length (m_x (o_model o))) l (points (k_degree k))).
Proof. exact w_C67_feasible. Qed.
Print Assumptions C67_feasible.

(** The bounds of the nonlinear program are those of the user, unless the objective is
    declared positive. *)
Theorem C67_bounds : forall F points dfun k c0 nl s r o x_c x_c0 first,
    respects F -> direct_setting points dfun k c0 nl s r o x_c x_c0 first -> o_positive o = false ->
    forall env q c, describes k (points (k_degree k)) env s r q ->
      followed o (k_elements k) (points (k_degree_control k)) q c ->
      (bounded k env r <-> user_within o (k_elements k) q c (points (k_degree_control k)) (points (k_degree k))).
Proof. exact w_C67_bounds. Qed.
Print Assumptions C67_bounds.

(** The objective at a feasible point is the cost of the trajectory for the user, with the
    running cost integrated at the collocation points, plus the initial value of the cost state. *)
Theorem C67_objective : forall F points dfun k c0 nl s r o x_c x_c0 first l v w b,
    respects F -> direct_setting points dfun k c0 nl s r o x_c x_c0 first ->
    o_L o = [l] -> o_V o = [v] -> o_S o = [w] -> exact_rule (points (k_degree k)) b ->
    exists e, nf nl = [e] /\ forall env q c, describes k (points (k_degree k)) env s r q ->
      followed o (k_elements k) (points (k_degree_control k)) q c -> feasible F env nl ->
      (eval F env e == user_cost F o (k_elements k) q c v l w (points (k_degree k)) b + nth (length (m_x (o_model o))) (q_x0 q) 0)%Q.
Proof. exact w_C67_objective. Qed.
Print Assumptions C67_objective.

(** Every collocated trajectory of the user belongs to a decision vector with this
    objective, which is feasible when it is within bounds. *)
Theorem C67_every_trajectory : forall F points dfun k c0 nl s r o x_c x_c0 first l v w b,
    respects F -> direct_setting points dfun k c0 nl s r o x_c x_c0 first ->
    o_L o = [l] -> o_V o = [v] -> o_S o = [w] -> exact_rule (points (k_degree k)) b ->
    exists e, nf nl = [e] /\ forall q c, sized k (points (k_degree k)) q ->
      followed o (k_elements k) (points (k_degree_control k)) q c ->
      user_collocated F o (k_elements k) q c (points (k_degree k)) ->
      exists env g, describes k (points (k_degree k)) env s r (with_cost q (length (m_x (o_model o))) g) /\
        (feasible F env nl <-> bounded k env r) /\
        (eval F env e == user_cost F o (k_elements k) q c v l w (points (k_degree k)) b + nth (length (m_x (o_model o))) (q_x0 q) 0)%Q.
Proof. exact w_C67_every_trajectory. Qed.
Print Assumptions C67_every_trajectory.

(** A minimum of the nonlinear program, for given parameters, is a trajectory of the user
    with minimal cost among all collocated trajectories with the same data within bounds. *)
Theorem C67_optimal : forall F points dfun k c0 nl s r o x_c x_c0 first l v w b,
    respects F -> direct_setting points dfun k c0 nl s r o x_c x_c0 first ->
    o_L o = [l] -> o_V o = [v] -> o_S o = [w] -> exact_rule (points (k_degree k)) b -> o_positive o = false ->
    let N := k_elements k in let pts := points (k_degree k) in let upts := points (k_degree_control k) in
    exists e, nf nl = [e] /\ forall env q c, describes k pts env s r q -> followed o N upts q c -> feasible F env nl ->
      (forall env', map env' (all_mx s) = map env (all_mx s) -> feasible F env' nl -> (eval F env e <= eval F env' e)%Q) ->
      user_collocated F o N q c pts /\ user_within o N q c upts pts /\
      forall q' c', sized k pts q' -> followed o N upts q' c' -> same_data o N q q' ->
        user_collocated F o N q' c' pts -> user_within o N q' c' upts pts ->
        (user_cost F o N q c v l w pts b <= user_cost F o N q' c' v l w pts b)%Q.
Proof. exact w_C67_optimal. Qed.
Print Assumptions C67_optimal.

(** The level of the example: all hypotheses hold, and holding the level is a minimum of the
    nonlinear program, with cost zero. *)
Example level_held : exists o k nl s r e env q c,
    level_problem false = Ok o /\ level_method false = Ok k /\
    direct_setting radau (fun _ e => e) k 1000 nl s r o 60 61 70 /\
    o_L o = [level_cost] /\ o_V o = [EConst 0] /\ o_S o = [EConst 0] /\ o_positive o = false /\
    exact_rule (radau (k_degree k)) [3 # 4; 1 # 4]%Q /\ nf nl = [e] /\
    describes k (radau (k_degree k)) env s r q /\ followed o (k_elements k) (radau (k_degree_control k)) q c /\
    feasible (fun _ x => x) env nl /\
    (forall env', map env' (all_mx s) = map env (all_mx s) -> feasible (fun _ x => x) env' nl ->
       (eval (fun _ x => x) env e <= eval (fun _ x => x) env' e)%Q) /\
    (eval (fun _ x => x) env e == 0)%Q.
Proof. exact w_level_held. Qed.

(** With an objective declared positive, trajectories are lost although the running cost is
    nowhere negative: the bound holds for the polynomial of the cost state at the collocation
    points, which can be negative there.  Here the level starts at 1/2, is 1 at the first
    collocation point and 2 at the second. *)
Theorem C67_positive_objective_refuted : exists o k nl s r q c,
    level_problem true = Ok o /\ level_method true = Ok k /\ o_positive o = true /\
    direct_setting radau (fun _ e => e) k 1000 nl s r o 60 61 70 /\
    o_L o = [level_cost] /\ (forall env, 0 <= eval (fun _ x => x) env level_cost)%Q /\
    sized k (radau (k_degree k)) q /\ followed o (k_elements k) (radau (k_degree_control k)) q c /\
    nth 1 (q_x0 q) 0%Q = 0%Q /\
    user_collocated (fun _ x => x) o (k_elements k) q c (radau (k_degree k)) /\
    user_within o (k_elements k) q c (radau (k_degree_control k)) (radau (k_degree k)) /\
    forall env g, describes k (radau (k_degree k)) env s r (with_cost q 1 g) -> ~ feasible (fun _ x => x) env nl.
Proof. exact w_C67_positive_objective. Qed.
Print Assumptions C67_positive_objective_refuted.

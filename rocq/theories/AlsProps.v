(** What the solutions of a relaxed problem say about the problem of the user. *)
From Coq Require Import String Qabs.
From Verif Require Import Base BaseProofs UtilModel ExprModel ExprProofs NlpModel NlpSpec SysModel SysSpec
  OcpModel OcpSpec LagModel LagSpec DiscModel DiscSpec ColSpec DirSpec AugModel AugSpec AlsSpec AlsTopProofs AlsExProofs.
Local Open Scope list_scope.
Local Open Scope nat_scope.

(** Relaxing takes the equations out of the problem, makes algebraic variables controls with
    the same bounds, and charges the penalty in the running cost.  Nothing else changes, and
    the new parameters are new. *)
Theorem C81_relaxed : forall F same points opts rq o c rx,
    relaxation same points opts rq o c rx ->
    loosened F (wanted o rq) (freed o rq) (rq_equalities rq) (rx_mu_sym rx) (rx_nu_par rx) (rx_nu_pol rx) o (rx_problem rx) /\
    picks (m_alg (o_model o)) (wanted o rq) (rx_alg rx) /\ picks (o_g_eq o) (rq_equalities rq) (rx_eq rx) /\
    Forall (fun v => c <= v) (rx_mu_sym rx ++ rx_nu_par rx).
Proof. exact w_C81_relaxed. Qed.
Print Assumptions C81_relaxed.

(** A trajectory is collocated for the problem of the user exactly when it is for the relaxed
    problem and the relaxed equations hold; and it is within the bounds of one exactly when
    it is within those of the other. *)
Theorem C81_same : forall F same points dfun opts rq o c rx k c0 nl s r x_c x_c0 first,
    respects F -> relaxation same points opts rq o c rx ->
    direct_setting points dfun k c0 nl s r (rx_problem rx) x_c x_c0 first ->
    let N := k_elements k in let pts := points (k_degree k) in let upts := points (k_degree_control k) in
    forall q c1 q' c', fits k pts q' -> same_trajectory o (freed o rq) N q c1 q' c' ->
      (user_collocated F o N q c1 pts <->
       user_collocated F (rx_problem rx) N q' c' pts /\ restored_equations F rx N q' c' pts) /\
      (freed o rq = [] \/ k_degree_control k = k_degree k ->
       (user_within (rx_problem rx) N q' c' upts pts <-> user_within o N q c1 upts pts)).
Proof. exact w_C81_same. Qed.
Print Assumptions C81_same.

(** For the relaxed problem a trajectory costs what it costs the user plus the penalty. *)
Theorem C81_cost : forall F same points dfun opts rq o c rx k c0 nl s r x_c x_c0 first l v w b,
    respects F -> relaxation same points opts rq o c rx ->
    direct_setting points dfun k c0 nl s r (rx_problem rx) x_c x_c0 first ->
    o_L o = [l] -> o_V o = [v] -> o_S o = [w] ->
    let N := k_elements k in let pts := points (k_degree k) in
    exists l', o_L (rx_problem rx) = [l'] /\ o_V (rx_problem rx) = [v] /\ o_S (rx_problem rx) = [w] /\
    forall q c1 q' c', fits k pts q' -> same_trajectory o (freed o rq) N q c1 q' c' ->
      (user_cost F (rx_problem rx) N q' c' v l' w pts b ==
       user_cost F o N q c1 v l w pts b +
       penalty_total F (rx_problem rx) N q' c' (rx_nu_pol rx) (rx_mu_sym rx) (rx_alg rx ++ rx_eq rx) pts b)%Q.
Proof. exact w_C81_cost. Qed.
Print Assumptions C81_cost.

(** Every trajectory of the relaxed problem is one of the problem of the user. *)
Theorem C81_trajectory : forall F same points dfun opts rq o c rx k c0 nl s r x_c x_c0 first,
    respects F -> relaxation same points opts rq o c rx ->
    direct_setting points dfun k c0 nl s r (rx_problem rx) x_c x_c0 first ->
    let N := k_elements k in let pts := points (k_degree k) in let upts := points (k_degree_control k) in
    forall env q' c', describes k pts env s r q' -> followed (rx_problem rx) N upts q' c' ->
      exists q c1, same_trajectory o (freed o rq) N q c1 q' c' /\ followed o N upts q c1.
Proof. exact w_C81_trajectory. Qed.
Print Assumptions C81_trajectory.

(** And every trajectory of the problem of the user is one of the relaxed problem, with the
    same data, if controls have as many points as algebraic variables. *)
Theorem C81_lifted : forall F same points dfun opts rq o c rx k c0 nl s r x_c x_c0 first,
    respects F -> relaxation same points opts rq o c rx ->
    direct_setting points dfun k c0 nl s r (rx_problem rx) x_c x_c0 first ->
    freed o rq = [] \/ k_degree_control k = k_degree k ->
    let N := k_elements k in let pts := points (k_degree k) in let upts := points (k_degree_control k) in
    forall env q' c' q c1 q2 c2, describes k pts env s r q' -> same_trajectory o (freed o rq) N q c1 q' c' ->
      shaped o upts pts q2 -> followed o N upts q2 c2 -> same_data o N q q2 ->
      exists q2' c2', sized k pts q2' /\ same_trajectory o (freed o rq) N q2 c2 q2' c2' /\
        followed (rx_problem rx) N upts q2' c2' /\ same_data (rx_problem rx) N q' q2'.
Proof. exact w_C81_lifted. Qed.
Print Assumptions C81_lifted.

(** At a minimum of the relaxed nonlinear program, whatever the multipliers and weights, the
    cost plus the penalty is at most the cost of any trajectory the user could have meant. *)
Theorem C81_bound : forall F same points dfun opts rq o c rx k c0 nl s r x_c x_c0 first l v w b,
    respects F -> relaxation same points opts rq o c rx ->
    direct_setting points dfun k c0 nl s r (rx_problem rx) x_c x_c0 first ->
    o_L o = [l] -> o_V o = [v] -> o_S o = [w] -> exact_rule (points (k_degree k)) b -> o_positive o = false ->
    freed o rq = [] \/ k_degree_control k = k_degree k ->
    let N := k_elements k in let pts := points (k_degree k) in let upts := points (k_degree_control k) in
    exists e, nf nl = [e] /\
    forall env q' c', describes k pts env s r q' -> followed (rx_problem rx) N upts q' c' -> feasible F env nl ->
      (forall env', map env' (all_mx s) = map env (all_mx s) -> feasible F env' nl -> (eval F env e <= eval F env' e)%Q) ->
      forall q c1, same_trajectory o (freed o rq) N q c1 q' c' ->
      user_within o N q c1 upts pts /\
      forall q2 c2, shaped o upts pts q2 -> followed o N upts q2 c2 -> same_data o N q q2 ->
        user_collocated F o N q2 c2 pts -> user_within o N q2 c2 upts pts ->
        (user_cost F o N q c1 v l w pts b +
         penalty_total F (rx_problem rx) N q' c' (rx_nu_pol rx) (rx_mu_sym rx) (rx_alg rx ++ rx_eq rx) pts b
         <= user_cost F o N q2 c2 v l w pts b)%Q.
Proof. exact w_C81_bound. Qed.
Print Assumptions C81_bound.

(** If moreover the relaxed equations hold at the minimum, it is an optimal trajectory of the
    problem of the user. *)
Theorem C81_optimal : forall F same points dfun opts rq o c rx k c0 nl s r x_c x_c0 first l v w b,
    respects F -> relaxation same points opts rq o c rx ->
    direct_setting points dfun k c0 nl s r (rx_problem rx) x_c x_c0 first ->
    o_L o = [l] -> o_V o = [v] -> o_S o = [w] -> exact_rule (points (k_degree k)) b -> o_positive o = false ->
    freed o rq = [] \/ k_degree_control k = k_degree k ->
    let N := k_elements k in let pts := points (k_degree k) in let upts := points (k_degree_control k) in
    exists e, nf nl = [e] /\
    forall env q' c', describes k pts env s r q' -> followed (rx_problem rx) N upts q' c' -> feasible F env nl ->
      (forall env', map env' (all_mx s) = map env (all_mx s) -> feasible F env' nl -> (eval F env e <= eval F env' e)%Q) ->
      restored_equations F rx N q' c' pts ->
      forall q c1, same_trajectory o (freed o rq) N q c1 q' c' ->
      user_collocated F o N q c1 pts /\ user_within o N q c1 upts pts /\
      forall q2 c2, shaped o upts pts q2 -> followed o N upts q2 c2 -> same_data o N q q2 ->
        user_collocated F o N q2 c2 pts -> user_within o N q2 c2 upts pts ->
        (user_cost F o N q c1 v l w pts b <= user_cost F o N q2 c2 v l w pts b)%Q.
Proof. exact w_C81_optimal. Qed.
Print Assumptions C81_optimal.

(** If they hold up to eps, the cost is at most the optimal cost plus the length of the horizon
    times eps times the sum of the multipliers. *)
Theorem C81_tolerance : forall F same points dfun opts rq o c rx k c0 nl s r x_c x_c0 first l v w b,
    respects F -> relaxation same points opts rq o c rx ->
    direct_setting points dfun k c0 nl s r (rx_problem rx) x_c x_c0 first ->
    o_L o = [l] -> o_V o = [v] -> o_S o = [w] -> exact_rule (points (k_degree k)) b -> o_positive o = false ->
    freed o rq = [] \/ k_degree_control k = k_degree k -> Forall (fun x => 0 <= x)%Q b ->
    let N := k_elements k in let pts := points (k_degree k) in let upts := points (k_degree_control k) in
    exists e, nf nl = [e] /\
    forall env q' c' M eps, describes k pts env s r q' -> followed (rx_problem rx) N upts q' c' -> feasible F env nl ->
      (forall env', map env' (all_mx s) = map env (all_mx s) -> feasible F env' nl -> (eval F env e <= eval F env' e)%Q) ->
      (0 <= eps)%Q -> nearly_restored F rx N q' c' pts M eps ->
      forall q c1 q2 c2, same_trajectory o (freed o rq) N q c1 q' c' ->
        shaped o upts pts q2 -> followed o N upts q2 c2 -> same_data o N q q2 ->
        user_collocated F o N q2 c2 pts -> user_within o N q2 c2 upts pts ->
        (user_cost F o N q c1 v l w pts b <= user_cost F o N q2 c2 v l w pts b + (o_t_f o - o_t_0 o) * (M * eps))%Q.
Proof. exact w_C81_tolerance. Qed.
Print Assumptions C81_tolerance.

(** The tank of the example, relaxed, with controls of degree two: all hypotheses hold at a
    minimum where the relaxed equation holds, and the tank drains. *)
Example drain_solved : exists o rx k nl s r e env q' c' q c,
    drain_problem [] = Ok o /\ drain_relaxed [] whole = Ok rx /\ drain_method [] whole 2 = Ok k /\
    relaxation same_expr radau drain_options whole o 100 rx /\
    direct_setting radau (fun _ e => e) k 1000 nl s r (rx_problem rx) 60 61 200 /\
    o_L o = [drain_cost] /\ o_V o = [EConst 0] /\ o_S o = [EConst 0] /\ o_positive o = false /\
    k_degree_control k = k_degree k /\ exact_rule (radau (k_degree k)) [3 # 4; 1 # 4]%Q /\ nf nl = [e] /\
    describes k (radau (k_degree k)) env s r q' /\ followed (rx_problem rx) (k_elements k) (radau (k_degree_control k)) q' c' /\
    feasible (fun _ x => x) env nl /\
    (forall env', map env' (all_mx s) = map env (all_mx s) -> feasible (fun _ x => x) env' nl ->
       (eval (fun _ x => x) env e <= eval (fun _ x => x) env' e)%Q) /\
    restored_equations (fun _ x => x) rx (k_elements k) q' c' (radau (k_degree k)) /\
    same_trajectory o (freed o whole) (k_elements k) q c q' c' /\ q_p q' = [1%Q] /\
    (poly (q_x q 1 0) 1 == (4 # 11) * (4 # 11))%Q.
Proof. exact w_drain_solved. Qed.

(** With the default degree of the controls the relaxed variables are constant on every
    element: trajectories of the user are lost.  The tank could drain at cost 0, but among the
    trajectories of the relaxed problem where the equation holds, all cost 2. *)
Theorem C81_degree_refuted : exists o rx k nl s r,
    drain_problem [] = Ok o /\ drain_relaxed [] whole = Ok rx /\ drain_method [] whole 1 = Ok k /\
    relaxation same_expr radau drain_options whole o 100 rx /\
    direct_setting radau (fun _ e => e) k 1000 nl s r (rx_problem rx) 60 61 200 /\
    o_L o = [drain_cost] /\ o_V o = [EConst 0] /\ o_S o = [EConst 0] /\ exact_rule (radau (k_degree k)) [3 # 4; 1 # 4]%Q /\
    k_degree_control k = 1 /\
    let F := fun (_ : nat) (x : Q) => x in let N := k_elements k in
    let pts := radau (k_degree k) in let upts := radau (k_degree_control k) in
    let cost := fun q c => user_cost F o N q c (EConst 0) drain_cost (EConst 0) pts [3 # 4; 1 # 4]%Q in
    (exists q c, shaped o upts pts q /\ followed o N upts q c /\ user_collocated F o N q c pts /\ user_within o N q c upts pts /\
       nth 0 (q_x0 q) 0%Q = 1%Q /\ (cost q c == 0)%Q) /\
    forall q' c' q c, fits k pts q' -> followed (rx_problem rx) N upts q' c' -> nth 0 (q_x0 q') 0%Q = 1%Q ->
      user_collocated F (rx_problem rx) N q' c' pts -> restored_equations F rx N q' c' pts ->
      same_trajectory o (freed o whole) N q c q' c' -> (cost q c == 2)%Q.
Proof. exact w_C81_degree. Qed.
Print Assumptions C81_degree_refuted.

(** An equality to hold at the end of the elements is relaxed as if it were to hold at all
    collocation points: the user has a trajectory, but on none of the relaxed problem do the
    relaxed equations hold. *)
Theorem C81_end_refuted : exists o rx,
    drain_problem drain_target = Ok o /\ drain_relaxed drain_target target_only = Ok rx /\ o_when_eq o = ["end"%string] /\
    let F := fun (_ : nat) (x : Q) => x in
    (exists q c, shaped o (radau 1) (radau 2) q /\ followed o 2 (radau 1) q c /\ user_collocated F o 2 q c (radau 2) /\ nth 0 (q_x0 q) 0%Q = 1%Q) /\
    forall q' c', shaped (rx_problem rx) (radau 1) (radau 2) q' -> followed (rx_problem rx) 2 (radau 1) q' c' -> nth 0 (q_x0 q') 0%Q = 1%Q ->
      user_collocated F (rx_problem rx) 2 q' c' (radau 2) -> ~ restored_equations F rx 2 q' c' (radau 2).
Proof. exact w_C81_end. Qed.
Print Assumptions C81_end_refuted.

(** C82: the direct method with multiple shooting solves the problem of the user. *)
From Coq Require Import String.
From Verif Require Import Base UtilModel ExprModel ExprProofs NlpModel NlpSpec SysModel SysSpec SimModel OcpModel OcpSpec LagModel LagSpec
  DiscModel DiscSpec ColSpec DirSpec ShoModel ShoSpec DmsSpec DmsRkProofs DmsExProofs.
Local Open Scope list_scope.
Local Open Scope nat_scope.

(** A point of the nonlinear program is feasible exactly when it is within the bounds, the
    system of the user, driven by its controls, goes through its states and satisfies the
    constraints of the user, and the extra state collects the running cost. *)
Theorem C82_feasible : forall F flow total integrate buildable label defaults ty points k c0 nl s r shots o x_c x_c0 first l,
    respects F -> shooting_setting buildable label defaults ty points k c0 nl s r shots o x_c x_c0 first ->
    integrates F integrate defaults (plugin_of ty (length (m_y (o_model o)))) (guess_of k) flow ->
    solution_method flow total -> o_L o = [l] ->
    let N := k_elements k in let upts := points (k_degree_control k) in let n := length (m_x (o_model o)) in
    forall env h c, describes_shooting k env s r h -> computed F integrate defaults env shots -> steers o N upts h c ->
      exists ends, driven_to F flow o N h c ends /\
        (feasible F env nl <-> bounded k env r /\ works F o N h c ends /\ collects F total o N h c n l).
Proof. exact w_C82_feasible. Qed.
Print Assumptions C82_feasible.

(** The bounds are those of the user; an objective declared positive also bounds the
    collected cost at the ends of the elements. *)
Theorem C82_bounds : forall F buildable label defaults ty points k c0 nl s r shots o x_c x_c0 first,
    respects F -> shooting_setting buildable label defaults ty points k c0 nl s r shots o x_c x_c0 first ->
    let N := k_elements k in let upts := points (k_degree_control k) in let n := length (m_x (o_model o)) in
    forall env h c, describes_shooting k env s r h -> steers o N upts h c ->
      (bounded k env r <-> plan_within o N h c upts /\
         (o_positive o = true -> forall el, el <= N -> (0 <= nth n (h_x h el) 0)%Q)).
Proof. exact w_C82_bounds. Qed.
Print Assumptions C82_bounds.

(** The objective is the cost of the user, up to the initial value of the extra state. *)
Theorem C82_objective : forall F flow total integrate buildable label defaults ty points k c0 nl s r shots o x_c x_c0 first l,
    respects F -> shooting_setting buildable label defaults ty points k c0 nl s r shots o x_c x_c0 first ->
    integrates F integrate defaults (plugin_of ty (length (m_y (o_model o)))) (guess_of k) flow ->
    solution_method flow total -> o_L o = [l] ->
    let N := k_elements k in let upts := points (k_degree_control k) in let n := length (m_x (o_model o)) in
    forall v w, o_V o = [v] -> o_S o = [w] ->
      exists e, nf nl = [e] /\ forall env h c ends, describes_shooting k env s r h -> computed F integrate defaults env shots -> steers o N upts h c ->
        driven_to F flow o N h c ends -> feasible F env nl ->
        (eval F env e == plan_cost F total o N h c v l w ends + nth n (h_x0 h) 0)%Q.
Proof. exact w_C82_objective. Qed.
Print Assumptions C82_objective.

(** Every plan of the user that works is found among the points of the nonlinear program,
    with its cost, and is lost only if it is not within the bounds. *)
Theorem C82_every_plan : forall F flow total integrate buildable label defaults ty points k c0 nl s r shots o x_c x_c0 first l,
    respects F -> shooting_setting buildable label defaults ty points k c0 nl s r shots o x_c x_c0 first ->
    integrates F integrate defaults (plugin_of ty (length (m_y (o_model o)))) (guess_of k) flow ->
    solution_method flow total -> o_L o = [l] ->
    let N := k_elements k in let upts := points (k_degree_control k) in let n := length (m_x (o_model o)) in
    forall v w, o_V o = [v] -> o_S o = [w] ->
      exists e, nf nl = [e] /\ forall h c ends, sized_plan k h -> steers o N upts h c -> driven_to F flow o N h c ends -> works F o N h c ends ->
        exists env g, describes_shooting k env s r (with_collected h n g) /\ computed F integrate defaults env shots /\
          (feasible F env nl <-> bounded k env r) /\
          (eval F env e == plan_cost F total o N h c v l w ends + nth n (h_x0 h) 0)%Q.
Proof. exact w_C82_every_plan. Qed.
Print Assumptions C82_every_plan.

(** A minimum of the nonlinear program is a best plan of the user.  If the objective is
    declared positive, the running cost must not be negative. *)
Theorem C82_optimal : forall F flow total integrate buildable label defaults ty points k c0 nl s r shots o x_c x_c0 first l,
    respects F -> shooting_setting buildable label defaults ty points k c0 nl s r shots o x_c x_c0 first ->
    integrates F integrate defaults (plugin_of ty (length (m_y (o_model o)))) (guess_of k) flow ->
    solution_method flow total -> o_L o = [l] ->
    let N := k_elements k in let upts := points (k_degree_control k) in let n := length (m_x (o_model o)) in
    forall v w, o_V o = [v] -> o_S o = [w] ->
      exists e, nf nl = [e] /\ forall env h c, describes_shooting k env s r h -> computed F integrate defaults env shots -> steers o N upts h c ->
        feasible F env nl ->
        (o_positive o = true -> (0 <= nth n (h_x0 h) 0)%Q /\ forall h' c' el, (0 <= spent F total o N h' c' l el)%Q) ->
        (forall env', map env' (all_mx s) = map env (all_mx s) -> computed F integrate defaults env' shots -> feasible F env' nl ->
           (eval F env e <= eval F env' e)%Q) ->
        exists ends, driven_to F flow o N h c ends /\ works F o N h c ends /\ plan_within o N h c upts /\
          forall h' c' ends', sized_plan k h' -> steers o N upts h' c' -> same_plan_data o N h h' -> driven_to F flow o N h' c' ends' ->
            works F o N h' c' ends' -> plan_within o N h' c' upts ->
            (plan_cost F total o N h c v l w ends <= plan_cost F total o N h' c' v l w ends')%Q.
Proof. exact w_C82_optimal. Qed.
Print Assumptions C82_optimal.

(** What is assumed of integrators holds for explicit Runge-Kutta methods with any tableau
    and number of steps: a state whose derivative is the running cost collects the running
    cost with the same weights, and does not change the other states. *)
Theorem C82_runge_kutta : forall tb steps, solution_method (rk_flow tb steps) (rk_total tb steps).
Proof. exact rk_solution. Qed.
Print Assumptions C82_runge_kutta.
Theorem C82_runge_kutta_integrates : forall F tb steps defaults plugin z0,
    integrates F (rk_integrator F tb steps) defaults plugin z0 (rk_flow tb steps).
Proof. exact rk_integrates. Qed.
Print Assumptions C82_runge_kutta_integrates.

(** The level of the example with the Runge-Kutta method of fourth order: all hypotheses
    hold, and holding the level is a minimum of the nonlinear program, with cost zero. *)
Example level_planned : exists o k nl s r shots e env h c,
    level_problem false = Ok o /\ level_method false = Ok k /\
    shooting_setting built_if_closed one_name [] "explicit" radau k 1000 nl s r shots o 60 61 70 /\
    integrates (fun _ x => x) (rk_integrator (fun _ x => x) runge_kutta 1) [] (plugin_of "explicit" (length (m_y (o_model o)))) (guess_of k) (rk_flow runge_kutta 1) /\
    o_L o = [level_cost] /\ o_V o = [EConst 0] /\ o_S o = [EConst 0] /\ o_positive o = false /\ nf nl = [e] /\
    describes_shooting k env s r h /\ computed (fun _ x => x) (rk_integrator (fun _ x => x) runge_kutta 1) [] env shots /\
    steers o (k_elements k) (radau (k_degree_control k)) h c /\ feasible (fun _ x => x) env nl /\
    (forall env', map env' (all_mx s) = map env (all_mx s) ->
       computed (fun _ x => x) (rk_integrator (fun _ x => x) runge_kutta 1) [] env' shots -> feasible (fun _ x => x) env' nl ->
       (eval (fun _ x => x) env e <= eval (fun _ x => x) env' e)%Q) /\
    (eval (fun _ x => x) env e == 0)%Q.
Proof. exact w_level_planned. Qed.

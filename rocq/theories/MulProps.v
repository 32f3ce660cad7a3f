(** What updated multipliers say about the problem of the user. *)
From Coq Require Import String Qabs.
From Verif Require Import Base BaseProofs UtilModel ExprModel ExprProofs NlpModel NlpSpec SysModel SysSpec
  OcpModel OcpSpec LagModel LagSpec DiscModel DiscSpec ColSpec DirSpec AugModel AugSpec AlsSpec IndSpec MulSpec MulProofs MulExProofs.
Local Open Scope list_scope.
Local Open Scope nat_scope.

(** With multipliers of the degree of the collocation, between two trajectories with the same
    parameters the cost of the relaxed problem changes as the cost of the user plus the relaxed
    equations times the updated multipliers of the first trajectory, and by half the weighted
    squares of the changes of the equations. *)
Theorem C90_exact : forall F same points dfun opts rq o c rx k c0 nl s r x_c x_c0 first l v w b,
    respects F -> relaxation same points opts rq o c rx ->
    direct_setting points dfun k c0 nl s r (rx_problem rx) x_c x_c0 first -> al_degree opts = k_degree k ->
    o_L o = [l] -> o_V o = [v] -> o_S o = [w] ->
    let N := k_elements k in let pts := points (k_degree k) in
    exists l', o_L (rx_problem rx) = [l'] /\ o_V (rx_problem rx) = [v] /\ o_S (rx_problem rx) = [w] /\
    forall q c1 q' c' q2 c2 q2' c2', fits k pts q' -> fits k pts q2' ->
      same_trajectory o (freed o rq) N q c1 q' c' -> same_trajectory o (freed o rq) N q2 c2 q2' c2' -> same_parameters N q' q2' ->
      let nu := raised F rx N q' c' in
      (user_cost F (rx_problem rx) N q2' c2' v l' w pts b - user_cost F (rx_problem rx) N q' c' v l' w pts b ==
       (user_cost F o N q2 c2 v l w pts b + multiplied_total F rx N q2' c2' nu pts b)
       - (user_cost F o N q c1 v l w pts b + multiplied_total F rx N q' c' nu pts b)
       + moved_total F rx N q' c' q2' c2' pts b)%Q.
Proof. exact w_C90_exact. Qed.
Print Assumptions C90_exact.

(** To first order, along every variation: the cost of the relaxed problem changes as the cost
    of the user plus the relaxed equations times the updated multipliers.  So where one is
    stationary the other is. *)
Theorem C90_first_order : forall F same points dfun opts rq o c rx k c0 nl s r x_c x_c0 first l v w b,
    respects F -> relaxation same points opts rq o c rx ->
    direct_setting points dfun k c0 nl s r (rx_problem rx) x_c x_c0 first -> al_degree opts = k_degree k ->
    o_L o = [l] -> o_V o = [v] -> o_S o = [w] ->
    let N := k_elements k in let pts := points (k_degree k) in
    exists l', o_L (rx_problem rx) = [l'] /\ o_V (rx_problem rx) = [v] /\ o_S (rx_problem rx) = [w] /\
    forall q c1 q' c', variation F o rq rx k pts q c1 q' c' ->
      let nu := raised F rx N (q' 0%Q) (c' 0%Q) in
      forall D, has_derivative (fun t => user_cost F (rx_problem rx) N (q' t) (c' t) v l' w pts b) 0%Q D <->
        has_derivative (fun t => user_cost F o N (q t) (c1 t) v l w pts b + multiplied_total F rx N (q' t) (c' t) nu pts b)%Q 0%Q D.
Proof. exact w_C90_first_order. Qed.
Print Assumptions C90_first_order.

(** The multipliers an update stores for the next pass are these updated multipliers of the
    trajectory it was given, at the collocation points. *)
Theorem C90_update : forall F same points dfun opts rq o c rx k c0 nl s r x_c x_c0 first,
    respects F -> relaxation same points opts rq o c rx ->
    direct_setting points dfun k c0 nl s r (rx_problem rx) x_c x_c0 first -> al_degree opts = k_degree k ->
    o_p_opt o = [] /\ o_theta_opt o = [] ->
    (forall e v, In e (written o) -> In v (x_c :: x_c0 :: m_u_par (k_model k)) -> ~ mentions e v) ->
    let N := k_elements k in let pts := points (k_degree k) in let upts := points (k_degree_control k) in
    forall vars, NoDup vars ->
    let a := mkAugmented k vars (rx_alg rx) (rx_eq rx) (rx_mu_sym rx) (rx_nu_pol rx) in
    forall st p th tr q' c', fitting a (m_p (o_model o)) (m_theta (o_model o)) st p th -> collocation_shape k tr ->
      reads k pts tr (given_p p ++ st_mu st) (fun el => given_in th el ++ nu_in st el) q' -> followed (rx_problem rx) N upts q' c' ->
      al_skip_compute opts = false -> al_skip_nu opts = false -> al_improve opts = false \/ st_last st = None ->
      forall st' errors, update_parameters F opts (create_nu_update_func points a) N p th (flatten tr) st = (st', Ok errors) ->
      exists d, st_nu_tilde st' = Some d /\
        forall el j tau i x, el < N -> nth_error pts j = Some tau -> nth_error (raised F rx N q' c' el tau) i = Some x ->
          exists y, multiplier d (length (rx_alg rx ++ rx_eq rx)) el j i = Some y /\ (y == x)%Q.
Proof. exact u_update. Qed.
Print Assumptions C90_update.

(** The tank of the example of C81 with level 1, inflow 1 + t and outflow 2 + t, weight 1 and
    multipliers 2 and 3: the cost changes by 21/2, and the updated multipliers are 3 and 4. *)
Example tank_first_order : exists o rx k nl s r l' q c q' c',
    drain_problem [] = Ok o /\ drain_relaxed [] whole = Ok rx /\ drain_method [] whole 2 = Ok k /\
    relaxation same_expr radau drain_options whole o 100 rx /\
    direct_setting radau (fun _ e => e) k 1000 nl s r (rx_problem rx) 60 61 200 /\ al_degree drain_options = k_degree k /\
    o_L o = [drain_cost] /\ o_V o = [EConst 0] /\ o_S o = [EConst 0] /\ o_L (rx_problem rx) = [l'] /\
    variation (fun _ x => x) o whole rx k (radau (k_degree k)) q c q' c' /\
    has_derivative (fun t => user_cost (fun _ x => x) (rx_problem rx) (k_elements k) (q' t) (c' t) (EConst 0) l' (EConst 0)
      (radau (k_degree k)) [3 # 4; 1 # 4]%Q) 0%Q (21 # 2)%Q /\
    (forall el, el < k_elements k -> Forall2 Qeq (raised (fun _ x => x) rx (k_elements k) (q' 0%Q) (c' 0%Q) el (1 # 3)%Q) [3%Q] /\
       Forall2 Qeq (raised (fun _ x => x) rx (k_elements k) (q' 0%Q) (c' 0%Q) el 1%Q) [4%Q]).
Proof. exact w_tank_first_order. Qed.

(** And the method computes 3 and 4 from a solution with this trajectory. *)
Example tank_updated_multipliers : exists o rx k nl s r vars st tr q' c' st' errors d,
    drain_problem [] = Ok o /\ drain_relaxed [] whole = Ok rx /\ drain_method [] whole 2 = Ok k /\
    relaxation same_expr radau drain_options whole o 100 rx /\
    direct_setting radau (fun _ e => e) k 1000 nl s r (rx_problem rx) 60 61 200 /\ al_degree drain_options = k_degree k /\
    o_p_opt o = [] /\ o_theta_opt o = [] /\
    (forall e v, In e (written o) -> In v (60 :: 61 :: m_u_par (k_model k)) -> ~ mentions e v) /\ NoDup vars /\
    let a := mkAugmented k vars (rx_alg rx) (rx_eq rx) (rx_mu_sym rx) (rx_nu_pol rx) in
    fitting a (m_p (o_model o)) (m_theta (o_model o)) st None None /\ collocation_shape k tr /\
    reads k (radau (k_degree k)) tr (given_p None ++ st_mu st) (fun el => given_in None el ++ nu_in st el) q' /\
    followed (rx_problem rx) (k_elements k) (radau (k_degree_control k)) q' c' /\
    al_skip_compute drain_options = false /\ al_skip_nu drain_options = false /\ al_improve drain_options = false /\
    update_parameters (fun _ x => x) drain_options (create_nu_update_func radau a) (k_elements k) None None (flatten tr) st = (st', Ok errors) /\
    st_nu_tilde st' = Some d /\
    forall el, el < k_elements k -> exists x y, multiplier d 1 el 0 0 = Some x /\ multiplier d 1 el 1 0 = Some y /\ (x == 3)%Q /\ (y == 4)%Q.
Proof. exact w_tank_updated. Qed.

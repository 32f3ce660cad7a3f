(** Successive passes of the augmented Lagrangian method. *)
From Coq Require Import String Qabs.
From Verif Require Import Base BaseProofs UtilModel ExprModel ExprProofs NlpModel NlpSpec SysModel SysSpec
  OcpModel OcpSpec LagModel LagSpec DiscModel DiscSpec ColSpec DirSpec AugModel AugSpec AlsSpec IndSpec MulSpec PasSpec PasProofs PasExProofs.
Local Open Scope list_scope.
Local Open Scope nat_scope.

(** The trajectory of a pass costs the user, with what its multipliers and weights charge, no
    more than the trajectory of any other pass with the same data, whatever the multipliers and
    weights of the other pass. *)
Theorem C91_compared : forall F same points dfun opts rq o c rx k c0 nl s r x_c x_c0 first l v w b,
    respects F -> relaxation same points opts rq o c rx ->
    direct_setting points dfun k c0 nl s r (rx_problem rx) x_c x_c0 first -> al_degree opts = k_degree k ->
    o_L o = [l] -> o_V o = [v] -> o_S o = [w] -> exact_rule (points (k_degree k)) b -> o_positive o = false ->
    freed o rq = [] \/ k_degree_control k = k_degree k ->
    let N := k_elements k in let pts := points (k_degree k) in
    exists e, nf nl = [e] /\
      forall env1 q1' c1' q1 c1 env2 q2' c2' q2 c2,
        pass F points o rq rx k nl s r e env1 q1' c1' q1 c1 -> pass F points o rq rx k nl s r e env2 q2' c2' q2 c2 ->
        same_data o N q1 q2 ->
        let nu := multipliers_at F rx N q1' c1' in let mu := weights_at rx N q1' c1' in
        (user_cost F o N q1 c1 v l w pts b + charged F rx N pts b nu mu q1' c1' <=
         user_cost F o N q2 c2 v l w pts b + charged F rx N pts b nu mu q2' c2')%Q.
Proof. exact p_compared. Qed.
Print Assumptions C91_compared.

(** A pass whose multipliers are those updated after another pass, with the same weights: its
    relaxed cost is at most that of the other pass plus the violation left there, and at least
    that of the other pass plus the weighted products of the two violations. *)
Theorem C91_updated : forall F same points dfun opts rq o c rx k c0 nl s r x_c x_c0 first l v w b,
    respects F -> relaxation same points opts rq o c rx ->
    direct_setting points dfun k c0 nl s r (rx_problem rx) x_c x_c0 first -> al_degree opts = k_degree k ->
    o_L o = [l] -> o_V o = [v] -> o_S o = [w] -> exact_rule (points (k_degree k)) b -> o_positive o = false ->
    freed o rq = [] \/ k_degree_control k = k_degree k ->
    let N := k_elements k in let pts := points (k_degree k) in
    exists e l', nf nl = [e] /\ o_L (rx_problem rx) = [l'] /\
      forall env1 q1' c1' q1 c1 env2 q2' c2' q2 c2,
        pass F points o rq rx k nl s r e env1 q1' c1' q1 c1 -> pass F points o rq rx k nl s r e env2 q2' c2' q2 c2 ->
        same_data o N q1 q2 ->
        everywhere N pts (raised F rx N q1' c1') (multipliers_at F rx N q2' c2') ->
        everywhere N pts (weights_at rx N q1' c1') (weights_at rx N q2' c2') ->
        let D := fun q c1 => user_cost F (rx_problem rx) N q c1 v l' w pts b in
        let mu := weights_at rx N q1' c1' in
        (D q1' c1' + crossed F rx N pts b mu q1' c1' q2' c2' <= D q2' c2')%Q /\
        (D q2' c2' <= D q1' c1' + violation F rx N pts b mu q1' c1')%Q.
Proof. exact p_updated. Qed.
Print Assumptions C91_updated.

Example C91_updated_passes : exists o rx k nl s r e env1 q1' c1' q1 c1 env2 q2' c2' q2 c2,
    let b := [(3 # 4)%Q; (1 # 4)%Q] in let N := k_elements k in let pts := radau (k_degree k) in let F := fun (_ : nat) (x : Q) => x in
    tank_setting o rx k nl s r e b /\
    pass F radau o whole rx k nl s r e env1 q1' c1' q1 c1 /\ pass F radau o whole rx k nl s r e env2 q2' c2' q2 c2 /\ same_data o N q1 q2 /\
    everywhere N pts (raised F rx N q1' c1') (multipliers_at F rx N q2' c2') /\ everywhere N pts (weights_at rx N q1' c1') (weights_at rx N q2' c2') /\
    (violation F rx N pts b (weights_at rx N q1' c1') q1' c1' == 2)%Q /\ (violation F rx N pts b (weights_at rx N q1' c1') q2' c2' == 0)%Q.
Proof. exact w_tank_update. Qed.

(** A pass with the same multipliers and all weights raised by one factor: the violation does
    not grow, and the cost of the user with the multipliers does not fall. *)
Theorem C91_weights : forall F same points dfun opts rq o c rx k c0 nl s r x_c x_c0 first l v w b,
    respects F -> relaxation same points opts rq o c rx ->
    direct_setting points dfun k c0 nl s r (rx_problem rx) x_c x_c0 first -> al_degree opts = k_degree k ->
    o_L o = [l] -> o_V o = [v] -> o_S o = [w] -> exact_rule (points (k_degree k)) b -> o_positive o = false ->
    freed o rq = [] \/ k_degree_control k = k_degree k ->
    let N := k_elements k in let pts := points (k_degree k) in
    exists e, nf nl = [e] /\
      forall env1 q1' c1' q1 c1 env2 q2' c2' q2 c2 t,
        pass F points o rq rx k nl s r e env1 q1' c1' q1 c1 -> pass F points o rq rx k nl s r e env2 q2' c2' q2 c2 ->
        same_data o N q1 q2 ->
        everywhere N pts (multipliers_at F rx N q1' c1') (multipliers_at F rx N q2' c2') -> (1 < t)%Q ->
        everywhere N pts (fun el tau => map (Qmult t) (weights_at rx N q1' c1' el tau)) (weights_at rx N q2' c2') ->
        let nu := multipliers_at F rx N q1' c1' in let mu := weights_at rx N q1' c1' in
        (violation F rx N pts b mu q2' c2' <= violation F rx N pts b mu q1' c1')%Q /\
        (user_cost F o N q1 c1 v l w pts b + multiplied_total F rx N q1' c1' nu pts b <=
         user_cost F o N q2 c2 v l w pts b + multiplied_total F rx N q2' c2' nu pts b)%Q.
Proof. exact p_weights. Qed.
Print Assumptions C91_weights.

Example C91_weights_passes : exists o rx k nl s r e env1 q1' c1' q1 c1 env2 q2' c2' q2 c2,
    let b := [(3 # 4)%Q; (1 # 4)%Q] in let N := k_elements k in let pts := radau (k_degree k) in let F := fun (_ : nat) (x : Q) => x in
    tank_setting o rx k nl s r e b /\
    pass F radau o whole rx k nl s r e env1 q1' c1' q1 c1 /\ pass F radau o whole rx k nl s r e env2 q2' c2' q2 c2 /\ same_data o N q1 q2 /\
    everywhere N pts (multipliers_at F rx N q1' c1') (multipliers_at F rx N q2' c2') /\
    everywhere N pts (fun el tau => map (Qmult 4) (weights_at rx N q1' c1' el tau)) (weights_at rx N q2' c2') /\
    (violation F rx N pts b (weights_at rx N q1' c1') q1' c1' == 2)%Q /\ (violation F rx N pts b (weights_at rx N q1' c1') q2' c2' == 1 # 8)%Q.
Proof. exact w_tank_weights. Qed.

(** A pass with updated multipliers and all weights raised by one factor [t]: the violation is
    at most that of the pass before times the square of [(t + 1) / (t - 1)]. *)
Theorem C91_violation : forall F same points dfun opts rq o c rx k c0 nl s r x_c x_c0 first l v w b,
    respects F -> relaxation same points opts rq o c rx ->
    direct_setting points dfun k c0 nl s r (rx_problem rx) x_c x_c0 first -> al_degree opts = k_degree k ->
    o_L o = [l] -> o_V o = [v] -> o_S o = [w] -> exact_rule (points (k_degree k)) b -> o_positive o = false ->
    freed o rq = [] \/ k_degree_control k = k_degree k ->
    Forall (fun x => 0 <= x)%Q b ->
    let N := k_elements k in let pts := points (k_degree k) in
    exists e, nf nl = [e] /\
      forall env1 q1' c1' q1 c1 env2 q2' c2' q2 c2 t,
        pass F points o rq rx k nl s r e env1 q1' c1' q1 c1 -> pass F points o rq rx k nl s r e env2 q2' c2' q2 c2 ->
        same_data o N q1 q2 ->
        everywhere N pts (raised F rx N q1' c1') (multipliers_at F rx N q2' c2') -> (1 < t)%Q ->
        everywhere N pts (fun el tau => map (Qmult t) (weights_at rx N q1' c1' el tau)) (weights_at rx N q2' c2') ->
        (forall el tau, el < N -> In tau pts -> Forall (fun m => 0 <= m)%Q (weights_at rx N q1' c1' el tau)) ->
        let mu := weights_at rx N q1' c1' in
        ((t - 1) * (t - 1) * violation F rx N pts b mu q2' c2' <= (t + 1) * (t + 1) * violation F rx N pts b mu q1' c1')%Q.
Proof. exact p_violation. Qed.
Print Assumptions C91_violation.

Example C91_violation_passes : exists o rx k nl s r e env1 q1' c1' q1 c1 env2 q2' c2' q2 c2,
    let b := [(3 # 4)%Q; (1 # 4)%Q] in let N := k_elements k in let pts := radau (k_degree k) in let F := fun (_ : nat) (x : Q) => x in
    tank_setting o rx k nl s r e b /\
    pass F radau o whole rx k nl s r e env1 q1' c1' q1 c1 /\ pass F radau o whole rx k nl s r e env2 q2' c2' q2 c2 /\ same_data o N q1 q2 /\
    everywhere N pts (raised F rx N q1' c1') (multipliers_at F rx N q2' c2') /\
    everywhere N pts (fun el tau => map (Qmult 4) (weights_at rx N q1' c1' el tau)) (weights_at rx N q2' c2') /\
    (forall el tau, el < N -> In tau pts -> Forall (fun m => 0 <= m)%Q (weights_at rx N q1' c1' el tau)) /\
    (violation F rx N pts b (weights_at rx N q1' c1') q1' c1' == 2)%Q /\ (violation F rx N pts b (weights_at rx N q1' c1') q2' c2' == 0)%Q.
Proof. exact w_tank_both. Qed.

(** The update between two passes makes these hypotheses true: whatever the next pass returns,
    its multipliers are the updated ones of the pass before and its weights those of the pass
    before times [beta], as long as these stay within [mu_max]. *)
Theorem C91_next : forall F same points dfun opts rq o c rx k c0 nl s r x_c x_c0 first,
    respects F -> relaxation same points opts rq o c rx ->
    direct_setting points dfun k c0 nl s r (rx_problem rx) x_c x_c0 first -> al_degree opts = k_degree k ->
    o_p_opt o = [] /\ o_theta_opt o = [] ->
    (forall e v, In e (written o) -> In v (x_c :: x_c0 :: m_u_par (k_model k)) -> ~ mentions e v) ->
    forall vars, NoDup vars ->
    let a := mkAugmented k vars (rx_alg rx) (rx_eq rx) (rx_mu_sym rx) (rx_nu_pol rx) in
    let N := k_elements k in let pts := points (k_degree k) in
    forall st p th tr q1 c1, fitting a (m_p (o_model o)) (m_theta (o_model o)) st p th -> collocation_shape k tr ->
      reads k pts tr (given_p p ++ st_mu st) (fun el => given_in th el ++ nu_in st el) q1 ->
      followed (rx_problem rx) N (points (k_degree_control k)) q1 c1 ->
      al_skip_compute opts = false -> al_skip_nu opts = false -> al_improve opts = false \/ st_last st = None ->
      al_skip_mu opts = false -> al_rule opts = "bounded-increase"%string ->
      Forall (fun m => m * al_beta opts <= al_mu_max opts)%Q (st_mu st) ->
      forall st' errors, update_parameters F opts (create_nu_update_func points a) N p th (flatten tr) st = (st', Ok errors) ->
      let st2 := take_nu_tilde st' in
      forall tr2 q2 c2, collocation_shape k tr2 ->
        reads k pts tr2 (given_p p ++ st_mu st2) (fun el => given_in th el ++ nu_in st2 el) q2 ->
        everywhere N pts (raised F rx N q1 c1) (multipliers_at F rx N q2 c2) /\
        everywhere N pts (fun el tau => map (Qmult (al_beta opts)) (weights_at rx N q1 c1 el tau)) (weights_at rx N q2 c2).
Proof. exact n_next. Qed.
Print Assumptions C91_next.

Example C91_next_pass : exists o rx k nl s r vars st tr q1' c1' st' errors tr2 q2' c2',
    drain_problem [] = Ok o /\ drain_relaxed [] whole = Ok rx /\ drain_method [] whole 2 = Ok k /\
    relaxation same_expr radau drain_options whole o 100 rx /\
    direct_setting radau (fun _ e => e) k 1000 nl s r (rx_problem rx) 60 61 200 /\ al_degree drain_options = k_degree k /\
    o_p_opt o = [] /\ o_theta_opt o = [] /\
    (forall e v, In e (written o) -> In v (60 :: 61 :: m_u_par (k_model k)) -> ~ mentions e v) /\ NoDup vars /\
    let a := mkAugmented k vars (rx_alg rx) (rx_eq rx) (rx_mu_sym rx) (rx_nu_pol rx) in
    fitting a (m_p (o_model o)) (m_theta (o_model o)) st None None /\ collocation_shape k tr /\
    reads k (radau (k_degree k)) tr (given_p None ++ st_mu st) (fun el => given_in None el ++ nu_in st el) q1' /\
    followed (rx_problem rx) (k_elements k) (radau (k_degree_control k)) q1' c1' /\
    al_skip_compute drain_options = false /\ al_skip_nu drain_options = false /\ al_improve drain_options = false /\
    al_skip_mu drain_options = false /\ al_rule drain_options = "bounded-increase"%string /\
    Forall (fun m => m * al_beta drain_options <= al_mu_max drain_options)%Q (st_mu st) /\
    update_parameters (fun _ x => x) drain_options (create_nu_update_func radau a) (k_elements k) None None (flatten tr) st = (st', Ok errors) /\
    let st2 := take_nu_tilde st' in collocation_shape k tr2 /\
    reads k (radau (k_degree k)) tr2 (given_p None ++ st_mu st2) (fun el => given_in None el ++ nu_in st2 el) q2' /\
    forall el, el < k_elements k -> Forall2 Qeq (weights_at rx (k_elements k) q2' c2' el 1%Q) [4%Q] /\
      Forall2 Qeq (multipliers_at (fun _ x => x) rx (k_elements k) q2' c2' el (1 # 3)%Q) [3%Q] /\
      Forall2 Qeq (multipliers_at (fun _ x => x) rx (k_elements k) q2' c2' el 1%Q) [4%Q].
Proof. exact w_tank_next. Qed.

(** C94: the method of a node of a network does what C92 and C93 ask of it. *)
From Coq Require Import String.
From Verif Require Import Base UtilModel ExprModel ExprProofs SysModel SysSpec NlpModel NlpSpec OcpModel OcpSpec DiscModel DiscSpec ColSpec DirSpec
  AugModel AugSpec AlsSpec MulSpec ResModel NetModel DalModel DalSpec ExoModel ExoSpec AgrSpec NodSpec NodProofs NodExProofs.
Local Open Scope list_scope.
Local Open Scope nat_scope.

Theorem C94_update : forall F same points dfun dopts net a opts s s' c rx k c0 nl ps r x_c x_c0 first,
  respects F -> connected_node same points dfun dopts net a opts s s' c rx k c0 nl ps r x_c x_c0 first ->
  let N := k_elements k in let pts := points (k_degree k) in let n := length (own_ends net a) in
  forall vars, NoDup vars ->
  let ag := mkAugmented k vars (rx_alg rx) (rx_eq rx) (rx_mu_sym rx) (rx_nu_pol rx) in
  forall last st p th tr q c',
    Forall (far_known net) (far_ends net a) -> full_results dopts last -> given dopts net last a th ->
    fitting ag (m_p (o_model (e_problem s'))) (m_theta (o_model (e_problem s'))) st p (Some th) -> collocation_shape k tr ->
    reads k pts tr (given_p p ++ st_mu st) (fun el => given_in (Some th) el ++ nu_in st el) q ->
    followed (rx_problem rx) N (points (k_degree_control k)) q c' ->
    al_skip_compute opts = false -> al_skip_nu opts = false -> al_improve opts = false \/ st_last st = None ->
    forall st' errors,
      AugModel.update_parameters F opts (create_nu_update_func points ag) N p (Some th) (flatten tr) st = (st', Ok errors) ->
      exists d, st_nu_tilde st' = Some d /\ st_nu st' = st_nu st /\
        forall el j i own far f, el < N -> j < k_degree k ->
          nth_error (own_ends net a) i = Some own -> nth_error (far_ends net a) i = Some far -> far_value net last el j far f ->
          exists x old w, multiplier d n el j i = Some x /\ multiplier (st_nu st) n el j i = Some old /\ nth_error (st_mu st) i = Some w /\
            (x == old + w * difference own (node_value rx N pts net a (q, c') el j i) f)%Q.
Proof. exact n_update. Qed.
Print Assumptions C94_update.

(** The node between two others has input 5 and output 3.  It was told 4 and 4 for the input
    and 7 and 8 for the output, at the two points, and its multipliers were 2 and 3. *)
Example C94_updated : exists s s' rx k nl ps r vars st th tr q c' st' errors d,
    relay_node = Ok s /\ relay_ready = Ok s' /\ relay_relaxed = Ok rx /\ relay_method = Ok k /\
    connected_node same_expr radau (fun _ e => e) relay_options relay_net 1 relay_al s s' 200 rx k 1000 nl ps r 60 61 300 /\
    Forall (far_known relay_net) (far_ends relay_net 1) /\ full_results relay_options relay_results /\
    given relay_options relay_net relay_results 1 th /\ NoDup vars /\
    let ag := mkAugmented k vars (rx_alg rx) (rx_eq rx) (rx_mu_sym rx) (rx_nu_pol rx) in
    fitting ag (m_p (o_model (e_problem s'))) (m_theta (o_model (e_problem s'))) st None (Some th) /\ collocation_shape k tr /\
    reads k (radau (k_degree k)) tr (given_p None ++ st_mu st) (fun el => given_in (Some th) el ++ nu_in st el) q /\
    followed (rx_problem rx) (k_elements k) (radau (k_degree_control k)) q c' /\
    al_skip_compute relay_al = false /\ al_skip_nu relay_al = false /\ al_improve relay_al = false /\
    AugModel.update_parameters (fun _ x => x) relay_al (create_nu_update_func radau ag) (k_elements k) None (Some th) (flatten tr) st = (st', Ok errors) /\
    st_nu_tilde st' = Some d /\
    map (fun i => Qred (node_value rx (k_elements k) (radau (k_degree k)) relay_net 1 (q, c') 0 0 i)) [0; 1] = [5; 3]%Q /\
    map (multiplier (st_nu st) 2 0 0) [0; 1] = [Some 2; Some 3]%Q /\ st_mu st = [1; 1]%Q /\
    map (fun x => option_map Qred (multiplier d 2 0 0 x)) [0; 1] = [Some 3; Some 7]%Q /\
    map (fun x => option_map Qred (multiplier d 2 0 1 x)) [0; 1] = [Some 3; Some 8]%Q.
Proof. exact w_relay_raised. Qed.

Theorem C94_cost : forall F same points dfun dopts net a opts s s' c rx k c0 nl ps r x_c x_c0 first,
  respects F -> connected_node same points dfun dopts net a opts s s' c rx k c0 nl ps r x_c x_c0 first ->
  let o := e_problem s' in let o' := rx_problem rx in let N := k_elements k in let pts := points (k_degree k) in
  forall l v w b, o_L o = [l] -> o_V o = [v] -> o_S o = [w] -> length b = k_degree k ->
    exists l', o_L o' = [l'] /\ o_V o' = [v] /\ o_S o' = [w] /\
    forall q1 c1 q c' th nu mu, fits k pts q -> same_trajectory o (freed o (connections (e_relax s'))) N q1 c1 q c' ->
      node_parameters N (k_degree k) (length (own_ends net a)) (length (m_p (o_model o))) th nu mu q ->
      (user_cost F o' N q c' v l' w pts b == user_cost F o N q1 c1 v l w pts b +
       charge dopts net node_trajectory (node_value rx N pts net) (fun _ j => user_step o' N * nth j b 0) a nu mu th (q, c'))%Q.
Proof. exact n_cost. Qed.
Print Assumptions C94_cost.

Theorem C94_best : forall F same points dfun dopts net a opts s s' c rx k c0 nl ps r x_c x_c0 first,
  respects F -> connected_node same points dfun dopts net a opts s s' c rx k c0 nl ps r x_c x_c0 first ->
  let o := e_problem s' in let o' := rx_problem rx in let others := freed o (connections (e_relax s')) in
  let N := k_elements k in let pts := points (k_degree k) in let upts := points (k_degree_control k) in
  forall l v w b, o_L o = [l] -> o_V o = [v] -> o_S o = [w] -> exact_rule pts b -> o_positive o' = false ->
    let charged nu mu th x := charge dopts net node_trajectory (node_value rx N pts net) (fun _ j => user_step o' N * nth j b 0)%Q a nu mu th x in
    exists e, nf nl = [e] /\ forall env q c' q1 c1 th nu mu, describes k pts env ps r q -> followed o' N upts q c' -> feasible F env nl ->
      (forall env', map env' (all_mx ps) = map env (all_mx ps) -> feasible F env' nl -> (eval F env e <= eval F env' e)%Q) ->
      same_trajectory o others N q1 c1 q c' ->
      node_parameters N (k_degree k) (length (own_ends net a)) (length (m_p (o_model o))) th nu mu q ->
      user_collocated F o' N q c' pts /\ user_within o' N q c' upts pts /\
      forall z cz z1 cz1, sized k pts z -> followed o' N upts z cz -> same_data o' N q z ->
        user_collocated F o' N z cz pts -> user_within o' N z cz upts pts -> same_trajectory o others N z1 cz1 z cz ->
        (user_cost F o N q1 c1 v l w pts b + charged nu mu th (q, c') <= user_cost F o N z1 cz1 v l w pts b + charged nu mu th (z, cz))%Q.
Proof. exact n_best. Qed.
Print Assumptions C94_best.

(** The hypotheses of both are met by the node between two others: with state, output and
    first input 1, which the others want as well, and second input 0, it pays nothing. *)
Example C94_solved : exists s s' rx k nl ps r e env q c' q1 c1,
    relay_node = Ok s /\ relay_ready = Ok s' /\ relay_relaxed = Ok rx /\ relay_method = Ok k /\
    connected_node same_expr radau (fun _ e => e) relay_options relay_net 1 relay_al s s' 200 rx k 1000 nl ps r 60 61 300 /\
    o_L (e_problem s') = [relay_cost] /\ o_V (e_problem s') = [EConst 0] /\ o_S (e_problem s') = [EConst 0] /\
    exact_rule (radau (k_degree k)) [3 # 4; 1 # 4]%Q /\ o_positive (rx_problem rx) = false /\ nf nl = [e] /\
    describes k (radau (k_degree k)) env ps r q /\ followed (rx_problem rx) (k_elements k) (radau (k_degree_control k)) q c' /\
    feasible (fun _ x => x) env nl /\
    (forall env', map env' (all_mx ps) = map env (all_mx ps) -> feasible (fun _ x => x) env' nl ->
       (eval (fun _ x => x) env e <= eval (fun _ x => x) env' e)%Q) /\
    same_trajectory (e_problem s') (freed (e_problem s') (connections (e_relax s'))) (k_elements k) q1 c1 q c' /\
    node_parameters (k_elements k) (k_degree k) (length (own_ends relay_net 1)) (length (m_p (o_model (e_problem s'))))
      [(0, [1; 1; 1; 1]%Q)] (fun _ _ _ => 0%Q) [1; 1]%Q q.
Proof. exact w_relay_best. Qed.

(** Property theorems C33-C36, C64: networks. *)
From Coq Require Import String Permutation Sorted.
From Verif Require Import Base ExprModel SysModel SysSpec SimModel DataModel OcpModel OcpSpec
  NetModel NetSpec NetProofs NetColorProofs NetInterProofs NetAssemblyProofs NetMoreProofs.
Local Open Scope list_scope.

(** ** C33 *)

(** Included nodes are in the network with an identifier; a node that had one keeps it,
    and nothing else about the nodes changes. *)
Theorem C33_included :
  forall l w w',
    include_nodes l w = (w', Ok tt) ->
    (forall a, in_network w' a <-> in_network w a \/ In a l) /\
    (forall a, In a l -> exists i, has_id w' a i) /\
    (forall a i, has_id w a i -> has_id w' a i) /\
    (forall a, ~ In a l -> nth_error (w_store w') a = nth_error (w_store w) a) /\
    (forall a b y u, carries (w_graph w') a b y u <-> carries (w_graph w) a b y u).
Proof. exact included. Qed.
Print Assumptions C33_included.

(** When the network chooses the identifiers, they are different and a lookup by
    identifier finds exactly the node that has it. *)
Theorem C33_lookup :
  forall made ops w,
    no_own_ids made ops -> built made ops w ->
    (forall a b i, has_id w a i -> has_id w b i -> a = b) /\
    (forall i a, getitem (KInt i) w = Ok a <-> in_network w a /\ has_id w a i).
Proof. exact lookup_by_id. Qed.
Print Assumptions C33_lookup.

Theorem C33_lookup_missing :
  forall w i,
    getitem (KInt i) w = Raise IndexError <-> (forall a, in_network w a -> ~ has_id w a i).
Proof. exact getitem_missing. Qed.
Print Assumptions C33_lookup_missing.

(** A lookup by name returns the first included node of that name, if there is one. *)
Theorem C33_lookup_name :
  forall w s,
    (forall a, getitem (KStr s) w = Ok a <->
       exists before after, map fst (w_graph w) = before ++ a :: after /\ has_name w a s /\
         forall b, In b before -> ~ has_name w b s) /\
    (getitem (KStr s) w = Raise KeyError <-> (forall a, in_network w a -> ~ has_name w a s)).
Proof. exact lookup_by_name. Qed.
Print Assumptions C33_lookup_name.

(** Iteration asks for 0, 1, 2, ... until there is no such node. *)
Theorem C33_iteration :
  forall w,
    (forall k a, nth_error (iterate w) k = Some a -> getitem (KInt (Z.of_nat k)) w = Ok a) /\
    getitem (KInt (Z.of_nat (length (iterate w)))) w = Raise IndexError /\
    NoDup (iterate w) /\ (forall a, In a (iterate w) -> in_network w a).
Proof. exact iteration. Qed.
Print Assumptions C33_iteration.

(** It visits every node exactly when the identifiers are 0, ..., n - 1. *)
Theorem C33_visits_all :
  forall made ops w,
    built made ops w ->
    (forall a b i, in_network w a -> in_network w b -> has_id w a i -> has_id w b i -> a = b) ->
    ((forall a, in_network w a -> In a (iterate w)) <->
     (forall a, in_network w a ->
        exists i, has_id w a i /\ (0 <= i < Z.of_nat (length (w_graph w)))%Z)).
Proof. exact visits_all. Qed.
Print Assumptions C33_visits_all.

(** That is the case after calls that succeed, when the network chooses the identifiers,
    every node was included, and the edges were not rebuilt. *)
Theorem C33_all_visited :
  forall made ops w,
    no_own_ids made ops -> Forall no_rebuild ops -> built_by made ops w ->
    (forall a, in_network w a -> exists i, has_id w a i) ->
    Permutation (iterate w) (map fst (w_graph w)).
Proof. exact all_visited. Qed.
Print Assumptions C33_all_visited.

(** The models and problems of a network are listed by identifier. *)
Theorem C33_models_in_order :
  forall w ms,
    models w = Ok ms ->
    exists l, listing w l /\
      ms = map (fun a => match nth_error (w_store w) a with Some n => n_model n | None => None end) l.
Proof. exact models_listing. Qed.
Print Assumptions C33_models_in_order.

(** A node has the model given, otherwise that of its problem, and the name given,
    otherwise that of its model. *)
Theorem C33_new_node :
  forall name id m p model_name,
    let n := new_node name id m p model_name in
    n_id n = id /\ n_problem n = p /\
    (forall x, m = Some x -> n_model n = Some x) /\
    (forall q, m = None -> p = Some q -> n_model n = Some (o_model q)) /\
    (m = None -> p = None -> n_model n = None) /\
    (forall s, name = Some s -> n_name n = Some s) /\
    (name = None -> n_model n <> None -> n_name n = model_name) /\
    (name = None -> n_model n = None -> n_name n = None).
Proof. exact made_node. Qed.
Print Assumptions C33_new_node.

Example C33_ex :
  no_own_ids [] row_history /\ built_by [] row_history row /\ iterate row = [0; 1; 2; 3]%nat /\
  getitem (KInt 2) row = Ok 2%nat /\ getitem (KStr "d") row = Ok 3%nat /\
  getitem (KInt 4) row = Raise IndexError.
Proof.
  split; [split; [constructor|repeat constructor]|].
  split; [exists false, 1000%nat; vm_compute; reflexivity|]. repeat split.
Qed.

(** An identifier that the user chose can coincide with one that the network assigns:
    one of the two nodes is then never found nor visited. *)
Theorem C33_own_id_refuted :
  exists ops w a b,
    built_by [] ops w /\ in_network w a /\ in_network w b /\ a <> b /\
    has_id w a 0 /\ has_id w b 0 /\ (forall i, getitem (KInt i) w <> Ok b) /\
    ~ In b (iterate w).
Proof. exact own_id_refuted. Qed.
Print Assumptions C33_own_id_refuted.

(** Connecting a node that was not included puts it into the network without an
    identifier: it is not visited, and the models cannot be listed any more. *)
Theorem C33_not_included_refuted :
  exists made ops w a,
    no_own_ids made ops /\ built_by made ops w /\ in_network w a /\
    (forall i, ~ has_id w a i) /\ ~ In a (iterate w) /\ models w = Raise TypeError.
Proof. exact not_included_refuted. Qed.
Print Assumptions C33_not_included_refuted.

(** Rebuilding the edges can leave a gap in the identifiers: no node is visited. *)
Theorem C33_rebuilt_refuted :
  exists ops w,
    no_own_ids [] ops /\ built_by [] ops w /\ length (w_graph w) = 3%nat /\ iterate w = [].
Proof. exact rebuilt_refuted. Qed.
Print Assumptions C33_rebuilt_refuted.

(** ** C34 *)

(** The groups of a network: every node in exactly one, no two connected nodes in the
    same. *)
Theorem C34_groups :
  forall made ops w,
    built made ops w ->
    let groups := get_map_coloring_groups (w_graph w) in
    Permutation (concat groups) (map fst (w_graph w)) /\ NoDup (concat groups) /\
    Forall (fun group => group <> []) groups /\
    (forall group a b, In group groups -> In a group -> In b group -> a <> b ->
       ~ linked (w_graph w) a b).
Proof. exact groups_of_built. Qed.
Print Assumptions C34_groups.

(** The default blocks of the distributed solver have different nodes of the network. *)
Theorem C34_blocks :
  forall made ops w,
    built made ops w ->
    let blocks := default_blocks (w_graph w) in
    NoDup (map fst blocks) /\ NoDup (concat (map snd blocks)) /\
    (forall a, In a (concat (map snd blocks)) -> in_network w a) /\
    Forall (fun block => block <> []) (map snd blocks).
Proof. exact blocks_of_built. Qed.
Print Assumptions C34_blocks.

(** Two nodes that are connected in both directions are not in one block. *)
Theorem C34_blocks_two_way :
  forall made ops w,
    built made ops w ->
    forall block a b y u y' u', In block (map snd (default_blocks (w_graph w))) -> In a block -> In b block -> a <> b ->
      carries (w_graph w) a b y u -> carries (w_graph w) b a y' u' -> False.
Proof. exact blocks_two_way. Qed.
Print Assumptions C34_blocks_two_way.

(** Two tanks that feed each other. *)
Example C34_ring :
  let ops := named_pair "a" "b" ++ [NConnect (outflow 2) (inflow 1) 1 0] in
  let w := run_caught net_step ops (new_network [] false 1000) in
  built [] ops w /\ carries (w_graph w) 0 1 (outflow 1) (inflow 2) /\ carries (w_graph w) 1 0 (outflow 2) (inflow 1) /\
  default_blocks (w_graph w) = [(0, [0]); (1, [1])]%nat.
Proof.
  split; [exists false, 1000%nat; reflexivity|]. split; [|split; [|vm_compute; reflexivity]].
  - eexists. split; [left; vm_compute; reflexivity|left; reflexivity].
  - eexists. split; [right; left; vm_compute; reflexivity|left; reflexivity].
Qed.

Example C34_ex :
  built [] row_history row /\ get_map_coloring_groups (w_graph row) = [[1; 3]; [2; 0]]%nat.
Proof. split; [exists false, 1000%nat; reflexivity|vm_compute; reflexivity]. Qed.

(** But these blocks can leave out nodes, *)
Theorem C34_blocks_omit_refuted :
  exists ops w a,
    built_by [] ops w /\ in_network w a /\ ~ In a (concat (map snd (default_blocks (w_graph w)))).
Proof. exact blocks_omit_refuted. Qed.
Print Assumptions C34_blocks_omit_refuted.

(** and have connected nodes in one block. *)
Theorem C34_blocks_linked_refuted :
  exists ops w a b block,
    built_by [] ops w /\ In block (map snd (default_blocks (w_graph w))) /\
    In a block /\ In b block /\ a <> b /\ linked (w_graph w) a b.
Proof. exact blocks_linked_refuted. Qed.
Print Assumptions C34_blocks_linked_refuted.

(** ** C35 *)

(** Every edge becomes a path through a node of its own; there are no other edges, and
    the nodes that existed are unchanged. *)
Theorem C35_paths :
  forall made ops w w',
    built made ops w -> insert_intermediary_nodes w = (w', Ok tt) ->
    exists via : addr -> addr -> addr,
      (forall a b y u, carries (w_graph w) a b y u ->
         (length (w_store w) <= via a b)%nat /\ stands_between w w' a b y u (via a b)) /\
      (forall a b y u a' b' y' u',
         carries (w_graph w) a b y u -> carries (w_graph w) a' b' y' u' ->
         via a b = via a' b' -> a = a' /\ b = b') /\
      (forall x z y u, carries (w_graph w') x z y u ->
         exists a b y0 u0, carries (w_graph w) a b y0 u0 /\
           ((x = a /\ z = via a b) \/ (x = via a b /\ z = b))) /\
      (forall x, in_network w' x <->
         exists a b y u, carries (w_graph w) a b y u /\ (x = a \/ x = b \/ x = via a b)) /\
      (forall x, (x < length (w_store w))%nat ->
         nth_error (w_store w') x = nth_error (w_store w) x).
Proof. exact paths. Qed.
Print Assumptions C35_paths.

(** The rebuild succeeds when every connection joins as many outputs as inputs, at least
    one, and the sending nodes have problems. *)
Theorem C35_succeeds :
  forall made ops w,
    built made ops w ->
    (forall a b y u, carries (w_graph w) a b y u ->
       y <> [] /\ length u = length y /\ exists p, has_problem w a p) ->
    snd (insert_intermediary_nodes w) = Ok tt.
Proof. exact inter_succeeds. Qed.
Print Assumptions C35_succeeds.

(** The connections of the rebuilt network, with the equations of the new nodes, say the
    same about the old variables. *)
Theorem C35_same_connections :
  forall made ops w w' F env dx,
    built made ops w -> equal_sizes w -> insert_intermediary_nodes w = (w', Ok tt) ->
    edges_hold env w' -> new_nodes_hold F env dx (length (w_store w)) w' -> edges_hold env w.
Proof. exact same_solutions_back. Qed.
Print Assumptions C35_same_connections.

Theorem C35_same_connections_back :
  forall made ops w w' F env dx,
    built made ops w -> edge_symbols_used w -> insert_intermediary_nodes w = (w', Ok tt) ->
    edges_hold env w ->
    exists env', (forall s, (s < w_fresh w)%nat -> env' s = env s) /\
      edges_hold env' w' /\ new_nodes_hold F env' dx (length (w_store w)) w'.
Proof. exact same_solutions_forth. Qed.
Print Assumptions C35_same_connections_back.

Example C35_ex :
  built [] row_history row /\ snd (insert_intermediary_nodes row) = Ok tt /\
  map (fun ad => (fst ad, map fst (snd ad))) (w_graph (fst (insert_intermediary_nodes row))) =
    [(4, [1]); (0, [4]); (1, [5]); (5, [2]); (2, [6]); (6, [3]); (3, [])]%nat /\
  iterate (fst (insert_intermediary_nodes row)) = [0; 1; 2; 3; 4; 5; 6]%nat.
Proof. split; [exists false, 1000%nat; reflexivity|]. vm_compute. repeat split. Qed.

(** A node without edges disappears from the network. *)
Theorem C35_isolated_refuted :
  forall made ops w w' a,
    built made ops w -> insert_intermediary_nodes w = (w', Ok tt) ->
    in_network w a -> (forall b, ~ linked (w_graph w) a b) -> ~ in_network w' a.
Proof. exact isolated_lost. Qed.
Print Assumptions C35_isolated_refuted.
Example C35_isolated_ex :
  let ops := row_history ++ [NCreate (tank_node "e" None 5 0%Q)] in
  let w := run_caught net_step ops (new_network [] false 1000) in
  in_network w 4%nat /\ (forall b, ~ linked (w_graph w) 4%nat b) /\
  snd (insert_intermediary_nodes w) = Ok tt.
Proof. exact isolated_example. Qed.

(** A rebuild that fails has already dropped the edges. *)
Theorem C35_not_atomic_refuted :
  exists made ops w,
    built_by made ops w /\ linked (w_graph w) 0%nat 1%nat /\
    snd (insert_intermediary_nodes w) <> Ok tt /\
    w_graph (fst (insert_intermediary_nodes w)) = [].
Proof. exact not_atomic_refuted. Qed.
Print Assumptions C35_not_atomic_refuted.

(** The new nodes start at time 0: when the others start later, the problem of the
    network cannot be assembled any more. *)
Theorem C35_start_time_refuted :
  exists ops w t tau,
    built_by [] ops w /\ (exists o, get_problem t tau w = Ok o) /\
    snd (insert_intermediary_nodes w) = Ok tt /\
    forall o, get_problem t tau (fst (insert_intermediary_nodes w)) <> Ok o.
Proof. exact start_time_refuted. Qed.
Print Assumptions C35_start_time_refuted.

(** ** C36 *)

(** The model of a network has the variables of all node models, by identifier; the
    connected inputs are algebraic, with one equation each. *)
Theorem C36_structure :
  forall t tau w m,
    get_model t tau w = Ok m ->
    exists l ms,
      listing w l /\ Forall2 (has_model w) l ms /\
      (Forall in_step ms ->
       m_x m = flat_map m_x ms /\ m_x_0 m = flat_map m_x_0 ms /\
       m_y m = flat_map m_y ms ++ connected_inputs w /\
       m_u m = filter (not_in (connected_inputs w)) (flat_map m_u ms) /\
       m_p m = flat_map m_p ms /\ m_theta m = flat_map m_theta ms /\
       length (m_alg m) = (length (flat_map m_alg ms) + length (connected_inputs w))%nat /\
       length (m_ode m) = length (flat_map m_ode ms) /\ in_step m).
Proof. exact assembled. Qed.
Print Assumptions C36_structure.

(** Its solutions are those of all nodes together for which the values agree on every
    edge. *)
Theorem C36_solutions :
  forall t tau w m F env dx,
    get_model t tau w = Ok m ->
    (forall a n, in_network w a -> has_model w a n -> in_step n) ->
    (forall l ms, listing w l -> Forall2 (has_model w) l ms -> own_clocks t tau ms) ->
    (solves F env dx m <-> network_solution F env dx t tau w).
Proof. exact solutions_of_network. Qed.
Print Assumptions C36_solutions.

(** Assembling succeeds when every node has an identifier and a model with all its
    equations, no state belongs to two nodes, and the edges fit. *)
Theorem C36_succeeds :
  forall t tau made ops w l ms,
    built made ops w -> sorted_nodes w = Ok l -> Forall2 (has_model w) l ms ->
    Forall in_step ms -> Forall complete ms -> NoDup (flat_map m_x ms) -> well_connected w ->
    exists m, get_model t tau w = Ok m.
Proof. exact assembly_succeeds. Qed.
Print Assumptions C36_succeeds.

(** The problem of a network: the constraints and initial values of all nodes one after
    another, the sum of their costs, and the model as above. *)
Theorem C36_problem :
  forall t tau w o,
    get_problem t tau w = Ok o ->
    exists l ps,
      listing w l /\ Forall2 (has_problem w) l ps /\ ps <> [] /\
      let ms := map o_model ps in
      Forall (same_horizon o) ps /\
      o_x_0 o = flat_map o_x_0 ps /\ o_eta o = flat_map o_eta ps /\
      o_p_opt o = flat_map o_p_opt ps /\ o_theta_opt o = flat_map o_theta_opt ps /\
      o_h o = flat_map o_h ps /\ o_h_initial o = flat_map o_h_initial ps /\
      o_h_final o = flat_map o_h_final ps /\
      o_g_eq o = flat_map o_g_eq ps /\ o_g_ineq o = flat_map o_g_ineq ps /\
      o_when_eq o = flat_map o_when_eq ps /\ o_when_ineq o = flat_map o_when_ineq ps /\
      (forall ls, Forall2 (fun q c => o_L q = [c]) ps ls ->
         exists e, o_L o = [e] /\
           forall F env, (eval F env e == qsum (map (eval F env) ls))%Q) /\
      (forall ls, Forall2 (fun q c => o_V q = [c]) ps ls ->
         exists e, o_V o = [e] /\
           forall F env, (eval F env e == qsum (map (eval F env) ls))%Q) /\
      (forall ls, Forall2 (fun q c => o_S q = [c]) ps ls ->
         exists e, o_S o = [e] /\
           forall F env, (eval F env e == qsum (map (eval F env) ls))%Q) /\
      (Forall in_step ms ->
         m_x (o_model o) = flat_map m_x ms /\
         m_y (o_model o) = flat_map m_y ms ++ connected_inputs w /\
         m_u (o_model o) = filter (not_in (connected_inputs w)) (flat_map m_u ms)) /\
      (Forall in_step ms -> own_clocks t tau ms -> forall F env dx,
         solves F env dx (o_model o) <->
         Forall (fun m => solves F (assign env [m_t m; m_tau m] [env t; env tau]) dx m) ms /\
         edges_hold env w).
Proof. exact assembled_problem. Qed.
Print Assumptions C36_problem.

Example C36_ex :
  exists m o,
    get_model 1 2 row = Ok m /\ get_problem 1 2 row = Ok o /\
    m_x m = [102; 202; 302; 402]%nat /\ m_y m = [104; 204; 304; 404; 205; 305; 405]%nat /\
    m_u m = [105]%nat /\ o_x_0 o = [1; 1; 1; 1]%Q.
Proof. eexists. eexists. vm_compute. repeat split. Qed.

(** Connecting does not compare the sizes: the network is accepted, its model cannot be
    assembled. *)
Theorem C36_sizes_refuted :
  exists ops w, built_by [] ops w /\ forall t tau m, get_model t tau w <> Ok m.
Proof. exact sizes_refuted. Qed.
Print Assumptions C36_sizes_refuted.

(** A vector is accepted as output of a node when one of its elements belongs to it. *)
Theorem C36_foreign_output_refuted :
  exists made ops w a b y u s,
    built_by made ops w /\ carries (w_graph w) a b y u /\ In s y /\
    forall m, has_model w a m -> ~ In s (m_x m ++ m_y m ++ m_u m ++ m_p m ++ m_theta m).
Proof. exact foreign_output_refuted. Qed.
Print Assumptions C36_foreign_output_refuted.

(** ** C64 *)

(** The initial conditions from a simulation: for every node, by its name, the final
    value of each of its variables in the simulation of the whole network. *)
Theorem C64_initial_conditions :
  forall integrate defaults F default t tau t_f made ops w c,
    built made ops w -> names_differ w ->
    get_initial_condition integrate defaults F default t tau t_f w = Ok c ->
    exists o s r f,
      get_problem t tau w = Ok o /\
      ocp_simulate integrate defaults F o None (TNum t_f) None None UNone [] None None None [] =
        Ok s /\
      result_of default (o_model o) (o_t_0 o) [t_f] (None, None, None) s = Ok r /\
      final_condition r = Ok f /\
      (forall a, in_network w a -> exists n nm vx vy vu,
         nth_error (w_store w) a = Some n /\ n_model n = Some nm /\
         dget oname_eqb (n_name n) c = Some (vx, vy, vu) /\
         Forall2 (final_in (o_model o) f) (m_x nm) vx /\
         Forall2 (final_in (o_model o) f) (m_y nm) vy /\
         Forall2 (final_in (o_model o) f) (m_u nm) vu) /\
      (forall k, In k (map fst c) ->
         exists a n, in_network w a /\ nth_error (w_store w) a = Some n /\ n_name n = k).
Proof. exact initial_conditions. Qed.
Print Assumptions C64_initial_conditions.

Example C64_ex :
  let w := run_caught net_step (named_pair "a" "b") (new_network [] false 1000) in
  built [] (named_pair "a" "b") w /\ names_differ w /\
  get_initial_condition (fun _ => Ok ([7; 8], [1; 2; 3])%Q) [] (fun _ q => q) (fun s _ => s)
    1%nat 2%nat 5%Q w =
  Ok [(Some "a"%string, ([7], [1], [0])%Q); (Some "b"%string, ([8], [2], [3])%Q)].
Proof. exact initial_example. Qed.

(** Of nodes with the same name only one is reported. *)
Theorem C64_same_name_refuted :
  exists ops w integrate c,
    built_by [] ops w /\ in_network w 0%nat /\ in_network w 1%nat /\
    get_initial_condition integrate [] (fun _ q => q) (fun s _ => s) 1%nat 2%nat 5%Q w = Ok c /\
    length c = 1%nat.
Proof. exact same_name_refuted. Qed.
Print Assumptions C64_same_name_refuted.

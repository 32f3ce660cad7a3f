(** Specification vocabulary for networks. *)
From Coq Require Import String Permutation Sorted.
From Verif Require Import Base ExprModel SysModel SysSpec OcpModel OcpSpec NetModel.
Local Open Scope list_scope.

(** ** Nodes and edges *)

Definition in_network (w : network) (a : addr) : Prop := In a (map fst (w_graph w)).
Definition has_id (w : network) (a : addr) (i : Z) : Prop :=
  exists n, nth_error (w_store w) a = Some n /\ n_id n = Some i.
Definition has_name (w : network) (a : addr) (s : string) : Prop :=
  exists n, nth_error (w_store w) a = Some n /\ n_name n = Some s.
Definition has_model (w : network) (a : addr) (m : model) : Prop :=
  exists n, nth_error (w_store w) a = Some n /\ n_model n = Some m.
Definition has_problem (w : network) (a : addr) (p : ocp) : Prop :=
  exists n, nth_error (w_store w) a = Some n /\ n_problem n = Some p.

(** The edge from [a] to [b] connects the outputs [y] to the inputs [u]. *)
Definition carries (g : graph) (a b : addr) (y u : list sym) : Prop :=
  exists d, In (a, d) g /\ In (b, (y, u)) d.
Definition linked (g : graph) (a b : addr) : Prop :=
  exists y u, carries g a b y u \/ carries g b a y u.
(** A directed graph: each node once, at most one edge from a node to another, edges
    between nodes. *)
Definition directed_graph (g : graph) : Prop :=
  NoDup (map fst g) /\
  forall a d, In (a, d) g -> NoDup (map fst d) /\ forall b, In b (map fst d) -> In b (map fst g).

(** Networks a user can build, going on after refused calls; [made] are the node objects
    that existed before. *)
Definition built (made : list node) (ops : list net_op) (w : network) : Prop :=
  exists inter fresh, w = run_caught net_step ops (new_network made inter fresh).
Definition built_by (made : list node) (ops : list net_op) (w : network) : Prop :=
  exists inter fresh, run_all net_step ops (new_network made inter fresh) = (w, Ok tt).
(** The user leaves the choice of identifiers to the network. *)
Definition no_own_id (n : node) : Prop := n_id n = None.
Definition op_no_own_id (op : net_op) : Prop :=
  match op with NMake n | NCreate n => no_own_id n | _ => True end.
Definition no_own_ids (made : list node) (ops : list net_op) : Prop :=
  Forall no_own_id made /\ Forall op_no_own_id ops.
Definition no_rebuild (op : net_op) : Prop :=
  match op with NIntermediary => False | _ => True end.

(** ** Sums over a network *)

(** The values of inputs and outputs agree, one by one. *)
Definition agree (env : sym -> Q) (u y : list sym) : Prop :=
  Forall2 (fun c v => (env c == env v)%Q) u y.
Definition edges_hold (env : sym -> Q) (w : network) : Prop :=
  forall a b y u, carries (w_graph w) a b y u -> agree env u y.
(** Every node's equations hold, each with its time symbols read as [t], [tau], and every
    connection. *)
Definition network_solution (F : nat -> Q -> Q) (env dx : sym -> Q) (t tau : sym) (w : network)
  : Prop :=
  (forall a m, in_network w a -> has_model w a m ->
     solves F (assign env [m_t m; m_tau m] [env t; env tau]) dx m) /\
  edges_hold env w.

(** All identifiers, all different, in increasing order. *)
Definition in_id_order (w : network) (l : list addr) : Prop :=
  StronglySorted (fun a b => exists i j, has_id w a i /\ has_id w b j /\ (i <= j)%Z) l.
(** All nodes of the network, by identifier. *)
Definition listing (w : network) (l : list addr) : Prop :=
  Permutation l (map fst (w_graph w)) /\ in_id_order w l.

(** The symbols that the node models and the connections of a network use are below the
    next unused one. *)
Definition edge_symbols_used (w : network) : Prop :=
  forall a b y u s, carries (w_graph w) a b y u -> In s (y ++ u) -> (s < w_fresh w)%nat.
Definition equal_sizes (w : network) : Prop :=
  forall a b y u, carries (w_graph w) a b y u -> length u = length y.
(** The equations of the nodes made after the first [n] hold. *)
Definition new_nodes_hold (F : nat -> Q -> Q) (env dx : sym -> Q) (n : nat) (w : network) : Prop :=
  forall x m, in_network w x -> (n <= x)%nat -> has_model w x m -> solves F env dx m.

(** Node [n] of [w'] stands between [a] and [b], whose connection was from [y] to [u]:
    [a] sends [y] to the inputs [du] of [n], whose outputs [dy] go to the inputs [u] of
    [b]; [n] has no other variables, and they are new. *)
Definition stands_between (w w' : network) (a b : addr) (y u : list sym) (n : addr) : Prop :=
  exists m du dy,
    has_model w' n m /\ m_x m = [] /\ m_u m = du /\ m_y m = dy /\ m_p m = [] /\ m_theta m = [] /\
    length du = length y /\ length dy = length u /\
    (forall s, In s (du ++ dy) -> (w_fresh w <= s)%nat) /\ NoDup (du ++ dy) /\
    carries (w_graph w') a n y du /\ carries (w_graph w') n b dy u.

(** ** Assembled models *)

(** The inputs of all connections, in the order of the connections. *)
Definition connected_inputs (w : network) : list sym :=
  flat_map (fun ad => flat_map (fun bc => snd (snd bc)) (snd ad)) (w_graph w).
(** Each of [models] has its own time symbols: they are not [t] or [tau], and no other of
    the models uses them. *)
Definition own_clocks (t tau : sym) (models : list model) : Prop :=
  (forall m, In m models -> m_t m <> t /\ m_t m <> tau /\ m_tau m <> t /\ m_tau m <> tau) /\
  ForallOrdPairs (fun m m' => equations_free_of m (m_t m') /\ equations_free_of m (m_tau m')) models.
(** Every connection joins as many outputs as inputs, at least one; the inputs are
    controls of their node, and no input is connected twice. *)
Definition well_connected (w : network) : Prop :=
  NoDup (connected_inputs w) /\
  forall a b y u, carries (w_graph w) a b y u ->
    u <> [] /\ length u = length y /\
    exists m, has_model w b m /\ forall c, In c u -> In c (m_u m).

(** ** Final values *)

(** In the final condition [f] of a simulation of [m], variable [v] has the value [q]. *)
Definition final_in (m : model) (f : list Q * list Q * list Q) (v : sym) (q : Q) : Prop :=
  let at_position vars vals := exists i, nth_error vars i = Some v /\ nth_error vals i = Some q in
  at_position (m_x m) (fst (fst f)) \/
  (~ In v (m_x m) /\ at_position (m_y m) (snd (fst f))) \/
  (~ In v (m_x m) /\ ~ In v (m_y m) /\ at_position (m_u m) (snd f)).
Definition names_differ (w : network) : Prop :=
  forall a b na nb, in_network w a -> in_network w b ->
    nth_error (w_store w) a = Some na -> nth_error (w_store w) b = Some nb ->
    n_name na = n_name nb -> a = b.

(** ** Networks for the examples *)

(** A tank: der(level) = inflow - level, outflow - level = 0. *)
Definition tank (k : nat) : model :=
  let s i := (100 * k + i)%nat in
  fst (run_all (model_step (fun _ _ => false))
         [ MIncludeState [s 2] (Some [EBin OSub (EVar (s 5)) (EVar (s 2))]) [s 3];
           MIncludeAlgebraic [s 4] (Some [EBin OSub (EVar (s 4)) (EVar (s 2))]);
           MIncludeControl [s 5] ] (new_model (s 0) (s 1))).
Definition tank_problem (k : nat) (t_0 : Q) : option ocp :=
  match new_ocp (tank k) (Some [1%Q]) t_0 10%Q with Ok p => Some p | Raise _ => None end.
Definition tank_node (name : string) (id : option Z) (k : nat) (t_0 : Q) : node :=
  new_node (Some name) id (Some (tank k)) (tank_problem k t_0) None.
Definition outflow (k : nat) : list sym := [(100 * k + 4)%nat].
Definition inflow (k : nat) : list sym := [(100 * k + 5)%nat].
(** Four tanks in a row. *)
Definition row_history : list net_op :=
  [ NCreate (tank_node "a" None 1 0%Q); NCreate (tank_node "b" None 2 0%Q);
    NCreate (tank_node "c" None 3 0%Q); NCreate (tank_node "d" None 4 0%Q);
    NConnect (outflow 1) (inflow 2) 0 1; NConnect (outflow 2) (inflow 3) 1 2;
    NConnect (outflow 3) (inflow 4) 2 3 ].
Definition row : network := run_caught net_step row_history (new_network [] false 1000).
Definition named_pair (s s' : string) : list net_op :=
  [ NCreate (tank_node s None 1 0%Q); NCreate (tank_node s' None 2 0%Q);
    NConnect (outflow 1) (inflow 2) 0 1 ].

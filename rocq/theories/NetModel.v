(** Networks of systems (modelling/network/network.py, modelling/network/node.py) and the
    blocks of nodes that methods/network/distributedaugmetedlagrangian.py solves together.
    A node is a Python object: it is known by its address, the position in a list of
    all nodes that were created.  Plotting and the colours of nodes are not modelled. *)
From Coq Require Import String.
From Verif Require Import Base UtilModel ExprModel NlpModel SysModel SimModel OcpModel DataModel.
Local Open Scope list_scope.
Local Open Scope cmd_scope.

(** node.py:14-35.  The name is the one after lines 32-33. *)
Record node := mkNode
  { n_name : option string; n_id : option Z; n_model : option model; n_problem : option ocp }.
Definition set_n_id (i : Z) (n : node) : node :=
  mkNode (n_name n) (Some i) (n_model n) (n_problem n).

(** node.py:25-33 [__init__]. *)
Definition new_node (name : option string) (id : option Z) (m : option model) (p : option ocp)
    (model_name : option string) : node :=
  let m' := match m, p with None, Some q => Some (o_model q) | _, _ => m end in
  mkNode (match name, m' with None, Some _ => model_name | _, _ => name end) id m' p.

Definition addr := nat.
(** The attributes [y] and [u] of an edge. *)
Definition conn : Type := list sym * list sym.
(** networkx.DiGraph: nodes in order of insertion, each with its successors in order of
    insertion. *)
Definition graph := dict addr (dict addr conn).

Definition add_node (a : addr) (g : graph) : graph :=
  if dhas Nat.eqb a g then g else g ++ [(a, [])].
Definition add_nodes_from (l : list addr) (g : graph) : graph :=
  fold_left (fun g a => add_node a g) l g.
Definition succs (g : graph) (a : addr) : dict addr conn :=
  match dget Nat.eqb a g with Some d => d | None => [] end.
Definition edge (g : graph) (a b : addr) : option conn := dget Nat.eqb b (succs g a).
(** [graph.add_edge(a, b, ...)] and assignments to the attributes of an edge. *)
Definition add_edge (a b : addr) (c : conn) (g : graph) : graph :=
  let g := add_node b (add_node a g) in
  dset Nat.eqb a (dset Nat.eqb b c (succs g a)) g.
(** [graph.edges] with the attributes. *)
Definition edges (g : graph) : list (addr * addr * conn) :=
  flat_map (fun ad => map (fun bc => (fst ad, fst bc, snd bc)) (snd ad)) g.
(** [graph.remove_edge]. *)
Definition remove_edge (a b : addr) (g : graph) : res graph :=
  match dget Nat.eqb a g with
  | None => Raise AnyException
  | Some d => match ddel Nat.eqb b d with
              | Ok d' => Ok (dset Nat.eqb a d' g)
              | Raise _ => Raise AnyException
              end
  end.

(** network.py:27-45: the network, the nodes that exist, and the next unused symbol. *)
Record network := mkNet
  { w_store : list node; w_graph : graph; w_count : Z; w_inter : bool; w_fresh : nat }.
Definition set_w_store v w := mkNet v (w_graph w) (w_count w) (w_inter w) (w_fresh w).
Definition set_w_graph v w := mkNet (w_store w) v (w_count w) (w_inter w) (w_fresh w).
Definition set_w_count v w := mkNet (w_store w) (w_graph w) v (w_inter w) (w_fresh w).
Definition set_w_fresh v w := mkNet (w_store w) (w_graph w) (w_count w) (w_inter w) v.

(** network.py:28-45 [__init__] without nodes; [store] are the nodes that exist. *)
Definition new_network (store : list node) (inter : bool) (fresh : nat) : network :=
  mkNet store [] 0 inter fresh.

Definition node_at (w : network) (a : addr) : option node := nth_error (w_store w) a.
Fixpoint update {A : Type} (i : nat) (v : A) (l : list A) : list A :=
  match l, i with
  | [], _ => []
  | _ :: l', O => v :: l'
  | a :: l', S i' => a :: update i' v l'
  end.

(** ** Including nodes *)

(** network.py:126-128 and 226-237: one iteration.  An address without a node stands for
    an argument that is no node. *)
Definition give_id (a : addr) : cmd network unit :=
  fun w => match node_at w a with
           | None => (w, Raise AttributeError)
           | Some n =>
               match n_id n with
               | Some _ => (w, Ok tt)
               | None => (set_w_count (w_count w + 1)
                            (set_w_store (update a (set_n_id (w_count w) n) (w_store w)) w), Ok tt)
               end
           end.
(** network.py:120-134 [include_nodes]. *)
Definition include_nodes (l : list addr) : cmd network unit :=
  (fun w => run_all give_id l w) ;;;
  cmodify (fun w => set_w_graph (add_nodes_from l (w_graph w)) w).

(** The constructor [Node]: the address of the new node. *)
Definition make_node (n : node) : cmd network addr :=
  fun w => (set_w_store (w_store w ++ [n]) w, Ok (length (w_store w))).
(** network.py:98-118 [create_node]. *)
Definition create_node (n : node) : cmd network addr :=
  a <~ make_node n ;; (include_nodes [a] ;;; cret a).

(** ** Looking nodes up *)

Definition id_is (w : network) (i : Z) (a : addr) : bool :=
  match node_at w a with
  | Some n => match n_id n with Some j => (j =? i)%Z | None => false end
  | None => false
  end.
(** network.py:216-219 [get_node_by_id]. *)
Definition get_node_by_id (i : Z) (w : network) : option addr :=
  find (id_is w i) (dkeys (w_graph w)).
Definition name_is (w : network) (s : string) (a : addr) : bool :=
  match node_at w a with
  | Some n => match n_name n with Some s' => String.eqb s' s | None => false end
  | None => false
  end.
(** network.py:221-224 [get_node_by_name]. *)
Definition get_node_by_name (s : string) (w : network) : option addr :=
  find (name_is w s) (dkeys (w_graph w)).

(** network.py:47-58 [__getitem__]. *)
Inductive key := KInt (i : Z) | KStr (s : string) | KOther.
Definition getitem (k : key) (w : network) : res addr :=
  match k with
  | KInt i => match get_node_by_id i w with Some a => Ok a | None => Raise IndexError end
  | KStr s => match get_node_by_name s w with Some a => Ok a | None => Raise KeyError end
  | KOther => Raise NotImplementedErr
  end.

(** [for node in network]: without [__iter__], Python asks for the items 0, 1, 2, ...
    until IndexError.  [fuel] bounds the number of items. *)
Fixpoint iterate_from (fuel : nat) (i : Z) (w : network) : list addr :=
  match fuel with
  | O => []
  | S fuel' => match getitem (KInt i) w with
               | Ok a => a :: iterate_from fuel' (i + 1) w
               | Raise _ => []
               end
  end.
(** The items are different nodes, so there are at most as many as nodes
    (NetProofs.iterate_complete). *)
Definition iterate (w : network) : list addr := iterate_from (length (w_graph w)) 0 w.

(** Python's [sorted] with integer keys: equal keys keep their order. *)
Fixpoint insert_by {A : Type} (key : A -> Z) (a : A) (l : list A) : list A :=
  match l with
  | [] => [a]
  | b :: l' => if (key a <=? key b)%Z then a :: b :: l' else b :: insert_by key a l'
  end.
Definition sort_by {A : Type} (key : A -> Z) (l : list A) : list A :=
  fold_right (insert_by key) [] l.

(** network.py:86, 96: [sorted(self.nodes, key=lambda x: x.node_id)].  Comparing with
    None fails. *)
Definition id_of (w : network) (a : addr) : option Z :=
  match node_at w a with Some n => n_id n | None => None end.
Definition sorted_nodes (w : network) : res (list addr) :=
  let l := dkeys (w_graph w) in
  if (1 <? length l)%nat && existsb (fun a => match id_of w a with None => true | _ => false end) l
  then Raise TypeError
  else Ok (sort_by (fun a => match id_of w a with Some i => i | None => 0%Z end) l).

Definition model_of (w : network) (a : addr) : option model :=
  match node_at w a with Some n => n_model n | None => None end.
Definition problem_of (w : network) (a : addr) : option ocp :=
  match node_at w a with Some n => n_problem n | None => None end.
(** network.py:78-86 [models] and 88-96 [problems]. *)
Definition models (w : network) : res (list (option model)) :=
  match sorted_nodes w with Ok l => Ok (map (model_of w) l) | Raise e => Raise e end.
Definition problems (w : network) : res (list (option ocp)) :=
  match sorted_nodes w with Ok l => Ok (map (problem_of w) l) | Raise e => Raise e end.

(** ** Connections *)

(** network.py:169-178 [_connect]. *)
Definition raw_connect (y u : list sym) (a b : addr) : cmd network unit :=
  cmodify (fun w =>
    let '(y0, u0) := match edge (w_graph w) a b with Some c => c | None => ([], []) end in
    set_w_graph (add_edge a b (y0 ++ y, u0 ++ u) (w_graph w)) w).

(** [create_control] and [create_algebraic_variable] of one element each. *)
Definition dummy_model (t tau : sym) (du dy : list sym) : res model :=
  match zip_vec OSub (map EVar du) (map EVar dy) with
  | Raise e => Raise e
  | Ok alg =>
      match (each (fun s => include_control [s]) du ;;;
             each (fun s => include_algebraic [s] None) dy ;;;
             include_equations [] None None (Some alg)) (new_model t tau) with
      | (m, Ok _) => Ok m
      | (_, Raise e) => Raise e
      end
  end.

Definition text (s : option string) : string :=
  match s with Some s => s | None => "None"%string end.
Definition dummy_name (a b : option string) : string :=
  (("Dummy_node_" ++ text a) ++ ("_to_" ++ text b))%string.

(** network.py:282-312 [insert_intermediary_node].  [vertcat] without arguments fails. *)
Definition insert_intermediary_node (y u : list sym) (a b : addr) : cmd network unit :=
  fun w =>
    match node_at w a, node_at w b with
    | Some na, Some nb =>
        match y, u with
        | [], _ | _, [] => (w, Raise NotImplementedErr)
        | _, _ =>
            let c := w_fresh w in
            let du := seq (c + 2) (length y) in
            let dy := seq (c + 2 + length y) (length u) in
            match dummy_model c (c + 1) du dy with
            | Raise e => (w, Raise e)
            | Ok m =>
                match n_problem na with
                | None => (w, Raise AttributeError)
                | Some p =>
                    match new_ocp m None 0%Q (o_t_f p) with
                    | Raise e => (w, Raise e)
                    | Ok q =>
                        (cmodify (set_w_fresh (c + 2 + length y + length u)) ;;;
                         (n <~ create_node (new_node (Some (dummy_name (n_name na) (n_name nb)))
                                              None (Some m) (Some q) None) ;;
                          (raw_connect y du a n ;;; raw_connect dy u n b))) w
                    end
                end
            end
        end
    | _, _ => (w, Raise AttributeError)
    end.

(** network.py:146-167 [connect]; [None.has_variable] fails. *)
Definition has_var (v : list sym) (a : addr) (w : network) : res bool :=
  match model_of w a with None => Raise AttributeError | Some m => Ok (has_variable v m) end.
Definition check_var (v : list sym) (a : addr) : cmd network unit :=
  fun w => match has_var v a w with
           | Raise e => (w, Raise e)
           | Ok true => (w, Ok tt)
           | Ok false => (w, Raise ValueError)
           end.
Definition net_connect (y u : list sym) (a b : addr) : cmd network unit :=
  check_var y a ;;; check_var u b ;;;
  fun w => if w_inter w then insert_intermediary_node y u a b w else raw_connect y u a b w.

(** network.py:136-144 [remove_connection]. *)
Definition remove_connection (a b : addr) : cmd network unit :=
  cset (fun w => remove_edge a b (w_graph w)) set_w_graph.

(** network.py:269-280 [insert_intermediary_nodes]. *)
Definition insert_intermediary_nodes : cmd network unit :=
  fun w =>
    run_all (fun e => let '(a, b, (y, u)) := e in insert_intermediary_node y u a b)
            (edges (w_graph w)) (set_w_graph [] w).

(** ** Assembling *)

Fixpoint all_some {A : Type} (l : list (option A)) : res (list A) :=
  match l with
  | [] => Ok []
  | Some a :: l' => match all_some l' with Ok r => Ok (a :: r) | Raise e => Raise e end
  | None :: _ => Raise AttributeError
  end.

(** network.py:180-193 [get_model]; [t] and [tau] are the symbols of the new model. *)
Definition get_model (t tau : sym) (w : network) : res model :=
  match models w with
  | Raise e => Raise e
  | Ok l =>
      match all_some l with
      | Raise e => Raise e
      | Ok ms =>
          match (include_models ms ;;;
                 (fun m => run_all (fun e => connect (snd (snd e)) (map EVar (fst (snd e))) false)
                                   (edges (w_graph w)) m)) (new_model t tau) with
          | (m, Ok _) => Ok m
          | (_, Raise e) => Raise e
          end
      end
  end.

(** network.py:195-214 [get_problem]. *)
Definition get_problem (t tau : sym) (w : network) : res ocp :=
  match problems w with
  | Raise e => Raise e
  | Ok l =>
      match all_some l with
      | Raise e => Raise e
      | Ok [] => Raise IndexError
      | Ok (p :: ps) =>
          match new_ocp (new_model t tau) None (o_t_0 p) (o_t_f p) with
          | Raise e => Raise e
          | Ok o =>
              match (ocp_merge (p :: ps) ;;;
                     (fun o => run_all
                        (fun e => ocp_connect (snd (snd e)) (map EVar (fst (snd e))) false)
                        (edges (w_graph w)) o)) o with
              | (o', Ok _) => Ok o'
              | (_, Raise e) => Raise e
              end
          end
      end
  end.

(** ** Initial conditions from a simulation *)

(** [final_condition[var_type][index]] for a symbol of a node: [index] is the list of
    all its positions; the value is a number when there is one.  [DM] of a list of
    longer vectors fails. *)
Definition one_value (l : list Q) (idx : list nat) : res Q :=
  match idx with
  | [i] => match nth_error l i with Some q => Ok q | None => Raise CasadiError end
  | _ => Raise CasadiError
  end.
(** network.py:319-330 [find_type_and_index], [get_variable_final_condition]. *)
Definition final_value (m : model) (f : list Q * list Q * list Q) (v : sym) : res Q :=
  let '(fx, fy, fu) := f in
  match find_syms [v] (m_x m) with
  | (_ :: _) as idx => one_value fx idx
  | [] => match find_syms [v] (m_y m) with
          | (_ :: _) as idx => one_value fy idx
          | [] => match find_syms [v] (m_u m) with
                  | (_ :: _) as idx => one_value fu idx
                  | [] => Raise ValueError
                  end
          end
  end.
Fixpoint map_res {A B : Type} (f : A -> res B) (l : list A) : res (list B) :=
  match l with
  | [] => Ok []
  | a :: l' => match f a with
               | Raise e => Raise e
               | Ok b => match map_res f l' with Ok r => Ok (b :: r) | Raise e => Raise e end
               end
  end.
Definition node_condition (m : model) (f : list Q * list Q * list Q) (nm : model)
  : res (list Q * list Q * list Q) :=
  match map_res (final_value m f) (m_x nm), map_res (final_value m f) (m_y nm),
        map_res (final_value m f) (m_u nm) with
  | Ok x, Ok y, Ok u => Ok (x, y, u)
  | Raise e, _, _ => Raise e
  | _, Raise e, _ => Raise e
  | _, _, Raise e => Raise e
  end.
(** network.py:332-354: the loop over the nodes, keyed by name. *)
Definition conditions := dict (option string) (list Q * list Q * list Q).
Definition oname_eqb (a b : option string) : bool :=
  match a, b with
  | Some s, Some s' => String.eqb s s'
  | None, None => true
  | _, _ => false
  end.
Fixpoint condition_loop (m : model) (f : list Q * list Q * list Q) (w : network)
    (l : list addr) (acc : conditions) : res conditions :=
  match l with
  | [] => Ok acc
  | a :: l' =>
      match node_at w a with
      | None => Raise AttributeError
      | Some n =>
          match n_model n with
          | None => Raise AttributeError
          | Some nm =>
              match node_condition m f nm with
              | Raise e => Raise e
              | Ok c => condition_loop m f w l' (dset oname_eqb (n_name n) c acc)
              end
          end
      end
  end.
(** network.py:314-354 [get_initial_condition]. *)
Definition get_initial_condition (integrate : icall -> res (list Q * list Q)) (defaults : options)
    (F : nat -> Q -> Q) (default : string -> nat -> string) (t tau : sym) (t_f : Q) (w : network)
  : res conditions :=
  match get_problem t tau w with
  | Raise e => Raise e
  | Ok o =>
      match ocp_simulate integrate defaults F o None (TNum t_f) None None UNone [] None None None
                         [] with
      | Raise e => Raise e
      | Ok s =>
          match result_of default (o_model o) (o_t_0 o) [t_f] (None, None, None) s with
          | Raise e => Raise e
          | Ok r => match final_condition r with
                    | Raise e => Raise e
                    | Ok f => condition_loop (o_model o) f w (dkeys (w_graph w)) []
                    end
          end
      end
  end.

(** ** Colouring *)

(** networkx.greedy_color with the default strategy [largest_first]: the nodes by
    decreasing degree, each with the smallest colour that none of its coloured
    neighbours has. *)
Fixpoint first_free (fuel k : nat) (used : list nat) : nat :=
  match fuel with
  | O => k
  | S fuel' => if memb Nat.eqb k used then first_free fuel' (S k) used else k
  end.
Definition least_free (used : list nat) : nat := first_free (S (length used)) 0 used.
Definition colour_step (nbrs : addr -> list addr) (colors : dict addr nat) (a : addr)
  : dict addr nat :=
  dset Nat.eqb a
    (least_free (flat_map (fun b => match dget Nat.eqb b colors with Some c => [c] | None => [] end)
                          (nbrs a))) colors.
Definition greedy_color (nodes : list addr) (degree : addr -> nat) (nbrs : addr -> list addr)
  : dict addr nat :=
  fold_left (colour_step nbrs) (sort_by (fun a => (- Z.of_nat (degree a))%Z) nodes) [].

Definition has_edge (g : graph) (a b : addr) : bool :=
  match edge g a b with Some _ => true | None => false end.
(** [graph.to_undirected()]: the neighbours of a node, and its degree (a loop counts
    twice). *)
Definition und_nbrs (g : graph) (a : addr) : list addr :=
  filter (fun b => has_edge g a b || has_edge g b a) (dkeys g).
Definition und_degree (g : graph) (a : addr) : nat :=
  length (und_nbrs g a) + (if memb Nat.eqb a (und_nbrs g a) then 1 else 0).
(** The directed graph itself: [graph[a]] are the successors, the degree is in plus
    out. *)
Definition dir_nbrs (g : graph) (a : addr) : list addr := dkeys (succs g a).
Definition dir_degree (g : graph) (a : addr) : nat :=
  length (dir_nbrs g a) + length (filter (fun b => has_edge g b a) (dkeys g)).

(** network.py:258-267 [get_map_coloring_groups]. *)
Definition group_step (groups : dict nat (list addr)) (ac : addr * nat) : dict nat (list addr) :=
  let old := match dget Nat.eqb (snd ac) groups with Some l => l | None => [] end in
  dset Nat.eqb (snd ac) (old ++ [fst ac]) groups.
Definition get_map_coloring_groups (g : graph) : list (list addr) :=
  dvals (fold_left group_step (greedy_color (dkeys g) (und_degree g) (und_nbrs g)) []).

(** [itertools.groupby]: maximal runs of consecutive items with one key. *)
Fixpoint runs (l : list (addr * nat)) : list (nat * list addr) :=
  match l with
  | [] => []
  | (a, c) :: l' =>
      match runs l' with
      | (c', r) :: rest => if (c =? c')%nat then (c, a :: r) :: rest else (c, [a]) :: (c', r) :: rest
      | [] => [(c, [a])]
      end
  end.
(** distributedaugmetedlagrangian.py:83-94: the blocks when none are given. *)
Definition default_blocks (g : graph) : dict nat (list addr) :=
  dupdate Nat.eqb [] (runs (greedy_color (dkeys g) (dir_degree g) (dir_nbrs g))).

(** ** The calls a user can make *)
Inductive net_op : Type :=
| NMake (n : node)
| NInclude (l : list addr)
| NCreate (n : node)
| NConnect (y u : list sym) (a b : addr)
| NRemove (a b : addr)
| NIntermediary.
Definition net_step (op : net_op) : cmd network unit :=
  match op with
  | NMake n => make_node n ;;; cret tt
  | NInclude l => include_nodes l
  | NCreate n => create_node n ;;; cret tt
  | NConnect y u a b => net_connect y u a b
  | NRemove a b => remove_connection a b
  | NIntermediary => insert_intermediary_nodes
  end.

(** Vocabulary for what the two ends of a connection have in common in the distributed method. *)
From Coq Require Import String Permutation.
From Verif Require Import Base UtilModel ExprModel SysModel NlpModel NlpSpec ResModel NetModel DalModel DalSpec ExoModel ExoSpec.
Local Open Scope list_scope.

(** ** Ends of connections *)

(** The connected variables of node [a]: its inputs, then its outputs.  Its relaxed equation
    number [i] compares entry [i] with entry [i] of [far_ends net a]. *)
Definition own_ends (net : dnet) (a : addr) : list far_end :=
  map (FarInput a) (fed_inputs (map snd (dn_pred net a))) ++ map (FarOutput a) (used_outputs (map snd (dn_succ net a))).

(** Equation [i] of node [a] and equation [j] of node [b] belong to one connection: an input
    of [a] that an output of [b] feeds. *)
Definition meets (net : dnet) (a : addr) (i : nat) (b : addr) (j : nat) : Prop :=
  exists v w, nth_error (own_ends net a) i = Some (FarInput a v) /\ nth_error (far_ends net a) i = Some (FarOutput b w) /\
              nth_error (own_ends net b) j = Some (FarOutput b w) /\ nth_error (far_ends net b) j = Some (FarInput a v).

(** The connections of the network: the equations of its nodes come in these pairs, an input
    and the output that feeds it, and each belongs to one pair. *)
Definition wired (net : dnet) (pairs : list ((addr * nat) * (addr * nat))) : Prop :=
  Permutation (flat_map (fun a => map (pair a) (seq 0 (length (own_ends net a)))) (dn_nodes net))
              (map fst pairs ++ map snd pairs) /\
  forall a i b j, In ((a, i), (b, j)) pairs -> meets net a i b j.

(** What an equation says: the input minus the output. *)
Definition difference (own : far_end) (x other : Q) : Q :=
  match own with FarInput _ _ => (x - other)%Q | FarOutput _ _ => (other - x)%Q end.

(** Every node is solved in each sweep: the blocks are taken one after the other, or in any
    order. *)
Definition all_blocks (opts : dal_options) (blocks : dict nat (list addr)) (draw : nat -> list nat) : Prop :=
  do_choice opts = "cyclic"%string \/
  (do_choice opts = "sample"%string /\ forall k, Permutation (draw k) (seq 0 (length blocks))).
Definition covers (net : dnet) (blocks : dict nat (list addr)) : Prop :=
  NoDup (concat (map snd blocks)) /\ forall a, In a (dn_nodes net) -> In a (concat (map snd blocks)).

(** ** What the methods of the nodes do *)

Section Contract.
  (** [S] is the state of a method: [used] are the multipliers of its last solution and
      [next] those its next solution will use, by element, point and equation. *)
  Variable S : Type.
  Variables used next : S -> nat -> nat -> nat -> Q.
  Variable mu_of : S -> list Q.
  Variables (opts : dal_options) (net : dnet).
  (** The results that a node can have. *)
  Variable real : addr -> node_result -> Prop.

  (** A solution succeeds and uses the multipliers meant for it; it changes neither these
      nor the weights. *)
  Definition uses_next (solve : addr -> S -> theta Q -> option (list Q) -> S * res node_result) : Prop :=
    forall a m th g m' r, In a (dn_nodes net) -> solve a m th g = (m', Ok r) ->
      nr_success r = true /\ real a r /\ mu_of m' = mu_of m /\
      forall el k i, (used m' el k i == next m el k i)%Q /\ (next m' el k i == next m el k i)%Q.

  (** An update adds to the multipliers of the last solution the weight times what the
      equation says, with the values of the last results; weights grow by [grow]. *)
  Definition raises {E : Type} (grow : Q -> Q) (step : addr -> S -> theta Q -> list Q -> exogenous -> S * res E) : Prop :=
    forall last a r m th ex m' e, In a (dn_nodes net) -> result_of last a = Some r ->
      (forall b q, In b (dn_nodes net) -> result_of last b = Some q -> real b q) ->
      given opts net last a th -> step a m th (nr_x r) ex = (m', Ok e) ->
      mu_of m' = map grow (mu_of m) /\
      forall el k i own far v w, (el < do_elements opts)%nat -> (k < do_degree opts)%nat ->
        nth_error (own_ends net a) i = Some own -> nth_error (far_ends net a) i = Some far ->
        far_value net last el k own v -> far_value net last el k far w ->
        (next m' el k i == used m el k i + nth i (mu_of m) 0 * difference own v w)%Q.

  (** Weights are set without touching multipliers. *)
  Definition sets (set_mu : Q -> S -> S * res unit) : Prop :=
    forall q m m', set_mu q m = (m', Ok tt) ->
      mu_of m' = repeat q (length (mu_of m)) /\ forall el k i, (next m' el k i == next m el k i)%Q.
  Definition puts (put_mu : list Q -> S -> S) : Prop :=
    forall v m, mu_of (put_mu v m) = v /\ forall el k i, (next (put_mu v m) el k i == next m el k i)%Q.

  (** Every node has one weight for each of its equations, and the two ends of a connection
      have the same weight and the same multipliers. *)
  Definition agreed (m : addr -> S) : Prop :=
    (forall a, In a (dn_nodes net) -> length (mu_of (m a)) = length (own_ends net a)) /\
    forall a i b j, In a (dn_nodes net) -> In b (dn_nodes net) -> meets net a i b j ->
      (nth i (mu_of (m a)) 0 == nth j (mu_of (m b)) 0)%Q /\
      forall el k, (el < do_elements opts)%nat -> (k < do_degree opts)%nat -> (next (m a) el k i == next (m b) el k j)%Q.

  (** ** Problems of nodes *)

  (** [P] are the trajectories of nodes: which are feasible, what they cost, the values of
      the connected variables, and how to mix two. *)
  Variable P : Type.
  Variable feasible : addr -> P -> Prop.
  Variable cost : addr -> P -> Q.
  Variable value : addr -> P -> nat -> nat -> nat -> Q.
  Variable mix : Q -> P -> P -> P.
  Definition convex : Prop :=
    forall a t x z, (0 < t)%Q -> (t <= 1)%Q -> feasible a x -> feasible a z ->
      feasible a (mix t x z) /\ (cost a (mix t x z) <= (1 - t) * cost a x + t * cost a z)%Q /\
      forall el k i, (value a (mix t x z) el k i == (1 - t) * value a x el k i + t * value a z el k i)%Q.

  (** The rule that integrates, and entry [n] of the parameters in element [el]. *)
  Variable omega : nat -> nat -> Q.
  Definition integral (f : nat -> nat -> Q) : Q :=
    sum_of (map (fun el => sum_of (map (fun k => omega el k * f el k) (seq 0 (do_degree opts)))) (seq 0 (do_elements opts)))%Q.
  Definition parameter (th : theta Q) (el n : nat) : Q :=
    nth n (match dget Nat.eqb el th with Some v => v | None => [] end) 0%Q.
  (** What the multipliers [nu] and the weights [mu] add to the cost of [x], given [th]: the
      integral of the multiplier times what the equation says and of half the weight times
      its square, for every equation of the node. *)
  Definition charge (a : addr) (nu : nat -> nat -> nat -> Q) (mu : list Q) (th : theta Q) (x : P) : Q :=
    sum_of (map (fun i => integral (fun el k =>
        let d := difference (nth i (own_ends net a) (FarInput a 0%nat)) (value a x el k i) (parameter th el (i * do_degree opts + k)) in
        nu el k i * d + (1 # 2) * (nth i mu 0 * (d * d)))%Q)
      (seq 0 (length (own_ends net a)))).

  (** A solution is feasible, has the values its result says, and is the best for what the
      node was given. *)
  Variable point : node_result -> P.
  Definition minimises (solve : addr -> S -> theta Q -> option (list Q) -> S * res node_result) : Prop :=
    forall a m th g m' r, In a (dn_nodes net) -> solve a m th g = (m', Ok r) ->
      feasible a (point r) /\
      (forall last el k i own v, result_of last a = Some r -> (el < do_elements opts)%nat -> (k < do_degree opts)%nat ->
         nth_error (own_ends net a) i = Some own -> far_value net last el k own v -> (v == value a (point r) el k i)%Q) /\
      forall z, feasible a z ->
        (cost a (point r) + charge a (next m) (mu_of m) th (point r) <= cost a z + charge a (next m) (mu_of m) th z)%Q.

  (** The connected variables have the same values in both results. *)
  Definition unmoved (last last' : results) : Prop :=
    forall a e el k v v', In a (dn_nodes net) -> In e (own_ends net a) -> (el < do_elements opts)%nat -> (k < do_degree opts)%nat ->
      far_value net last el k e v -> far_value net last' el k e v' -> (v == v')%Q.
  (** Trajectories of all nodes that agree at the connections. *)
  Definition joined (x : addr -> P) : Prop :=
    forall a i b j, In a (dn_nodes net) -> In b (dn_nodes net) -> meets net a i b j ->
      forall el k, (el < do_elements opts)%nat -> (k < do_degree opts)%nat -> (value a (x a) el k i == value b (x b) el k j)%Q.
  Definition total_cost (x : addr -> P) : Q := sum_of (map (fun a => cost a (x a)) (dn_nodes net)).
  (** What the connections add to the cost of [x] with the multipliers an update would give:
      the multiplier, raised by the weight times the gap, times the gap. *)
  Definition gap_cost (pairs : list ((addr * nat) * (addr * nat))) (m : addr -> S) (x : addr -> P) : Q :=
    sum_of (map (fun e => match e with ((a, i), (b, j)) => integral (fun el k =>
        let g := value a (x a) el k i - value b (x b) el k j in
        (next (m a) el k i + nth i (mu_of (m a)) 0 * g) * g)%Q end) pairs).
  (** The trajectories in the results. *)
  Definition results_are (last : results) (x : addr -> P) : Prop :=
    forall a, In a (dn_nodes net) -> exists r, result_of last a = Some r /\ x a = point r.
End Contract.

(** ** Two nodes *)

(** The network of C49: the output of node 0 feeds the input of node 1.  A trajectory is the
    value of that variable; node 0 pays half the square of its distance from 2, node 1 half
    its square.  A state has the two multipliers and the weight. *)
Definition duo_state := ((Q * Q) * list Q)%type.
Definition duo_given (th : theta Q) : Q := match dget Nat.eqb 0%nat th with Some (q :: _) => q | _ => 0%Q end.
Definition duo_best (a : addr) (nu mu f : Q) : Q :=
  if (a =? 0)%nat then Qred ((2 + nu + mu * f) / (1 + mu)) else Qred ((mu * f - nu) / (1 + mu)).
Definition duo_solve (ok : addr -> bool) (a : addr) (m : duo_state) (th : theta Q) (guess : option (list Q)) : duo_state * res node_result :=
  let v := duo_best a (snd (fst m)) (nth 0 (snd m) 0%Q) (duo_given th) in
  (((snd (fst m), snd (fst m)), snd m),
   if Qle_bool 0 (nth 0 (snd m) 0%Q) then Ok (mkNodeResult (ok a) v [v] (link_data v)) else Raise ValueError).
Definition duo_gap (a : addr) (v f : Q) : Q := if (a =? 0)%nat then (f - v)%Q else (v - f)%Q.
Definition duo_update (a : addr) (m : duo_state) (th : theta Q) (x : list Q) (ex : exogenous) : duo_state * res (list Q) :=
  let d := duo_gap a (nth 0 x 0%Q) (duo_given th) in
  (((fst (fst m), (fst (fst m) + nth 0 (snd m) 0 * d)%Q), snd m), Ok [(d * d)%Q; (d * d)%Q]).
Definition duo_residual (a : addr) (m : duo_state) (th : theta Q) (x : list Q) (ex : exogenous) : duo_state * res (Q * ext * list Q) :=
  let (m', r) := duo_update a m th x ex in
  (m', match r with Ok es => Ok (nth 0 es 0%Q, NInf, es) | Raise e => Raise e end).
Definition duo_set (q : Q) (m : duo_state) : duo_state * res unit := ((fst m, repeat q (length (snd m))), Ok tt).
Definition duo_put (mu : list Q) (m : duo_state) : duo_state := (fst m, mu).
Definition duo_used (m : duo_state) (el k i : nat) : Q := fst (fst m).
Definition duo_next (m : duo_state) (el k i : nat) : Q := snd (fst m).
Definition duo_real (a : addr) (r : node_result) : Prop := exists v, nr_x r = [v] /\ nr_data r = link_data v.
Definition duo_point (r : node_result) : Q := nth 0 (nr_x r) 0%Q.
Definition duo_cost (a : addr) (x : Q) : Q := if (a =? 0)%nat then ((1 # 2) * ((x - 2) * (x - 2)))%Q else ((1 # 2) * (x * x))%Q.
Definition duo_value (a : addr) (x : Q) (el k i : nat) : Q := x.
Definition duo_mix (t x z : Q) : Q := ((1 - t) * x + t * z)%Q.
(** [inner] sweeps in each of [outer] iterations, blocks by [choice]. *)
Definition duo_options (distributed : bool) (choice rule : string) (inner outer : nat) : dal_options :=
  mkDal 1%nat 1%nat inner None outer (1 # 1000)%Q 1%Q distributed choice rule 10%Q 2%Q 2%Q.
Definition duo_start (nu : Q) : dstate duo_state := mkState _ [] (fun _ => ((nu, nu), [1%Q])).
Definition duo_dal (opts : dal_options) (ok : addr -> bool) (draw : nat -> list nat) :=
  dal_solve duo_state (duo_solve ok) duo_update duo_residual snd duo_set duo_put opts link_net link_blocks draw.
(** Both nodes have answered [v] and [w], and have the multipliers [nu0] and [nu1]. *)
Definition duo_answer (v : Q) : node_result := mkNodeResult true v [v] (link_data v).
Definition duo_loop (v w nu0 nu1 : Q) : loop duo_state :=
  mkLoop _ (mkState _ [(0%nat, duo_answer v); (1%nat, duo_answer w)] (fun a => (((if (a =? 0)%nat then nu0 else nu1), (if (a =? 0)%nat then nu0 else nu1)), [1%Q])))
         [(0%nat, duo_answer v); (1%nat, duo_answer w)] 1%nat [].
Definition duo_pairs : list ((addr * nat) * (addr * nat)) := [((1%nat, 0%nat), (0%nat, 0%nat))].
Definition duo_sweep (opts : dal_options) := sweep duo_state (duo_solve (fun _ => true)) opts link_net link_blocks (fun _ => []).
(** Two iterations, with and without processes and with both kinds of rules: the multipliers
    have moved, and are the same at both ends. *)
Definition duo_run (distributed : bool) (choice rule : string) (ok : addr -> bool) (draw : nat -> list nat) : option (Q * Q) :=
  match duo_dal (duo_options distributed choice rule 1%nat 2%nat) ok draw (duo_start 0%Q) with
  | (s', Ok _) => Some (Qred (duo_next (d_method _ s' 0%nat) 0 0 0), Qred (duo_next (d_method _ s' 1%nat) 0 0 0))
  | _ => None
  end.
Definition duo_at (v w : Q) (a : addr) : Q := if (a =? 0)%nat then v else w.

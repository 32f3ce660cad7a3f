(** Vocabulary for the properties of the distributed method. *)
From Coq Require Import String Permutation.
From Verif Require Import Base UtilModel ExprModel SysModel NlpModel NlpSpec ResModel NetModel DalModel.
Local Open Scope list_scope.

(** ** Sweeps *)

(** [b] sends values to [a] or receives some from it. *)
Definition neighbour (net : dnet) (a b : addr) : Prop :=
  In b (map fst (dn_pred net a)) \/ In b (map fst (dn_succ net a)).
(** No node of the list is a neighbour of another one. *)
Definition unconnected (net : dnet) (l : list addr) : Prop :=
  forall a b, In a l -> In b l -> a <> b -> ~ neighbour net a b.

Definition result_of (d : results) (a : addr) : option node_result := dget Nat.eqb a d.
(** The same results, node by node. *)
Definition same_results (d e : results) : Prop := forall a, result_of d a = result_of e a.

(** A successful result replaces the one before. *)
Definition kept (old : option node_result) (r : node_result) : option node_result :=
  if nr_success r then Some r else old.

(** Component [i] of what a node passes on in element [el]: from its result, else its
    guess at every point, else zero. *)
Definition sent (degree : nat) (guess : option (list Q)) (data : option (list (list (list Q)))) (i el : nat)
  : list Q :=
  match data with
  | Some d => map (fun v => nth i v 0%Q) (nth el d [])
  | None => repeat (match guess with Some g => nth i g 0%Q | None => 0%Q end) degree
  end.
(** What node [a] is given in element [el]: the outputs of its predecessors, then the
    inputs of its successors, in the order of the connections. *)
Definition received (opts : dal_options) (net : dnet) (last : results) (a : addr) (el : nat) : list Q :=
  flat_map (fun pc =>
    flat_map (fun i => sent (do_degree opts) (dn_y_guess net (fst pc))
                            (option_map (fun r => w_y (nr_data r)) (result_of last (fst pc))) i el)
             (find_syms (fst (snd pc)) (dn_y net (fst pc)))) (dn_pred net a) ++
  flat_map (fun sc =>
    flat_map (fun i => sent (do_degree opts) (dn_u_guess net (fst sc))
                            (option_map (fun r => w_u (nr_data r)) (result_of last (fst sc))) i el)
             (find_syms (snd (snd sc)) (dn_u net (fst sc)))) (dn_succ net a).

(** ** Iterations *)

(** The objectives after the sweeps of one outer iteration: at most [n] sweeps; a sweep is
    followed by another one only if it decreased the objective by the fraction [tol], the
    first always; and fewer than [n] only if the last one did not. *)
Definition inner_rule (tol : Q) (n : nat) (os : list Q) : Prop :=
  (length os <= n)%nat /\
  (forall k o o', nth_error os k = Some o -> nth_error os (k + 1) = Some o' -> (k + 2 < length os)%nat ->
                  (o' <= (1 - tol) * o)%Q) /\
  ((length os < n)%nat -> exists k o o', nth_error os k = Some o /\ nth_error os (k + 1) = Some o' /\
                                         (k + 2 = length os)%nat /\ ((1 - tol) * o < o')%Q).

(** The errors after the outer iterations: at most [n] iterations, followed by another one
    only if the error is not below [tol], and fewer only if it is. *)
Definition outer_rule (tol : Q) (n : nat) (ms : list Q) : Prop :=
  (length ms <= n)%nat /\
  (forall k m, nth_error ms k = Some m -> (k + 1 < length ms)%nat -> (tol <= m)%Q) /\
  ((length ms < n)%nat -> exists k m, nth_error ms k = Some m /\ (k + 1 = length ms)%nat /\ (m < tol)%Q).

(** Numbers of sweeps allowed in outer iteration [k]. *)
Definition sweeps_allowed (opts : dal_options) (k : nat) : nat :=
  if (k =? 0)%nat then Nat.max (do_inner opts) (match do_inner_first opts with Some n => n | None => 0 end)
  else do_inner opts.

(** The sum of the objectives of all results. *)
Fixpoint sum_of (l : list Q) : Q := match l with [] => 0%Q | q :: l' => (q + sum_of l')%Q end.
Definition is_largest (l : list Q) (m : Q) : Prop := In m l /\ forall e, In e l -> (e <= m)%Q.

(** The parameters [th] are what node [a] is given. *)
Definition given (opts : dal_options) (net : dnet) (last : results) (a : addr) (th : theta Q) : Prop :=
  (th = [] \/ map fst th = seq 0 (do_elements opts)) /\
  forall el, (el < do_elements opts)%nat ->
    match dget Nat.eqb el th with Some v => v | None => [] end = received opts net last a el.
(** The point a node starts from. *)
Definition started (last : results) (a : addr) : option (list Q) :=
  match result_of last a with Some r => Some (nr_x r) | None => None end.

(** ** Penalties *)

(** Every node [a] with a result [r] was updated by [update], giving [e]; the others were
    not touched. *)
Definition updated {S E : Type} (update : addr -> S -> theta Q -> list Q -> exogenous -> S * res E)
    (opts : dal_options) (net : dnet) (last rd : results) (m m' : addr -> S) (es : dict addr E) : Prop :=
  (forall a, result_of rd a = None -> m' a = m a /\ dget Nat.eqb a es = None) /\
  (forall a r, result_of rd a = Some r -> exists th ex e,
     given opts net last a th /\ update a (m a) th (nr_x r) ex = (m' a, Ok e) /\ dget Nat.eqb a es = Some e).

Definition is_largest_ext (l : list ext) (m : ext) : Prop := In m l /\ forall e, In e l -> ext_le e m.

(** The primal residual is larger than [gamma] times the dual one, and the other way
    round. *)
Definition primal_larger (gamma r : Q) (s : ext) : Prop :=
  match s with NInf => (0 < gamma)%Q | Fin q => (gamma * q < r)%Q | PInf => (gamma < 0)%Q end.
Definition dual_larger (gamma r : Q) (s : ext) : Prop :=
  match s with NInf => False | Fin q => (gamma * r < q)%Q | PInf => True end.
(** The rule "primal-dual". *)
Definition next_penalty (opts : dal_options) (r : Q) (s : ext) (mu mu' : Q) : Prop :=
  (primal_larger (do_gamma opts) r s -> mu' == do_beta opts * mu)%Q /\
  (~ primal_larger (do_gamma opts) r s -> dual_larger (do_gamma opts) r s -> mu' == mu / do_beta_decrease opts)%Q /\
  (~ primal_larger (do_gamma opts) r s -> ~ dual_larger (do_gamma opts) r s -> mu' == mu)%Q.

(** ** Example *)

(** Node 0 passes its variable 10 on to the variable 20 of node 1.  Each node answers the
    value it is given plus one, if it is one of [ok]; its state is its penalty and the
    number of solutions. *)
Definition link_options (distributed : bool) (rule : string) : dal_options :=
  mkDal 1%nat 1%nat 3%nat None 2%nat (1 # 10)%Q (1 # 100)%Q distributed "cyclic" rule 10%Q 2%Q 2%Q.
Definition link_net : dnet :=
  mkDnet [0%nat; 1%nat]
    (fun a => if (a =? 1)%nat then [(0%nat, ([10%nat], [20%nat]))] else [])
    (fun a => if (a =? 0)%nat then [(1%nat, ([10%nat], [20%nat]))] else [])
    (fun a => if (a =? 0)%nat then [10%nat] else [])
    (fun a => if (a =? 1)%nat then [20%nat] else [])
    (fun _ => None) (fun _ => None) Z.of_nat.
Definition link_blocks : dict nat (list addr) := [(0%nat, [0%nat]); (1%nat, [1%nat])].
Definition link_data (v : Q) : opt_result :=
  mkResult 1 1 0 1 [0; 1]%Q [] [] [] [] [] [[[v]]] [[[v]]] [] [] [] [] [] [] [] [] [] [] None.
Definition link_solve (ok : nat -> addr -> bool) (a : addr) (m : list Q * nat) (th : theta Q) (guess : option (list Q))
  : (list Q * nat) * res node_result :=
  let v := (match dget Nat.eqb 0%nat th with Some (q :: _) => q | _ => 0 end + 1)%Q in
  ((fst m, (snd m + 1)%nat), Ok (mkNodeResult (ok (snd m) a) v [v] (link_data v))).
(** An update doubles the penalty of node 1 and reports the error [e] twice. *)
Definition link_update (e : Q) (a : addr) (m : list Q * nat) (th : theta Q) (x : list Q) (ex : exogenous)
  : (list Q * nat) * res (list Q) :=
  ((if (a =? 1)%nat then map (fun q => 2 * q)%Q (fst m) else fst m, snd m), Ok [e; e]).
Definition link_primal_dual (e : Q) (a : addr) (m : list Q * nat) (th : theta Q) (x : list Q) (ex : exogenous)
  : (list Q * nat) * res (Q * ext * list Q) := (m, Ok (e, NInf, [e; e])).
Definition link_set (q : Q) (m : list Q * nat) : (list Q * nat) * res unit := ((map (fun _ => q) (fst m), snd m), Ok tt).
Definition link_put (mu : list Q) (m : list Q * nat) : list Q * nat := (mu, snd m).
Definition link_start : dstate (list Q * nat) := mkState _ [] (fun _ => ([1%Q], 0%nat)).
Definition link_dal (opts : dal_options) (ok : nat -> addr -> bool) (e : Q) :=
  dal_solve (list Q * nat) (link_solve ok) (link_update e) (link_primal_dual e) fst link_set link_put
            opts link_net link_blocks (fun _ => []).
(** The same with a third node that is connected to none. *)
Definition link_third : dnet :=
  mkDnet [0%nat; 1%nat; 2%nat] (dn_pred link_net) (dn_succ link_net) (dn_y link_net) (dn_u link_net)
         (fun _ => None) (fun _ => None) Z.of_nat.
Definition link_third_blocks : dict nat (list addr) := [(0%nat, [0%nat]); (1%nat, [1%nat; 2%nat])].
Definition link_third_dal (opts : dal_options) (ok : nat -> addr -> bool) (e : Q) :=
  dal_solve (list Q * nat) (link_solve ok) (link_update e) (link_primal_dual e) fst link_set link_put
            opts link_third link_third_blocks (fun _ => []).
(** Two nodes without connections; one sweep.  Node 1 is solved only from its own guess. *)
Definition island_options : dal_options :=
  mkDal 1%nat 1%nat 1%nat None 1%nat (1 # 10)%Q (1 # 100)%Q false "cyclic" "constant" 10%Q 2%Q 2%Q.
Definition island_net : dnet :=
  mkDnet [0%nat; 1%nat] (fun _ => []) (fun _ => []) (fun _ => []) (fun _ => []) (fun _ => None) (fun _ => None) Z.of_nat.
Definition island_solve (a : addr) (m : list Q * nat) (th : theta Q) (guess : option (list Q))
  : (list Q * nat) * res node_result :=
  (m, Ok (mkNodeResult (match guess with Some _ => (a =? 0)%nat | None => true end) 1%Q [1%Q] (link_data 1%Q))).

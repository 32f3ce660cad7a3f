(** The distributed method with averaged connections
    (methods/network/bipartite_jacobi_admm.py, "bip" below): what it does otherwise than
    the class it is made from. *)
From Coq Require Import String.
From Verif Require Import Base UtilModel ExprModel LagModel SysModel NlpModel OcpModel NetModel DalModel ExoModel.
Local Open Scope list_scope.
Local Open Scope cmd_scope.

(** [(a + b) / 2.0] of two vectors of one size. *)
Definition mean_vec (a b : list expr) : list expr :=
  map (fun ab => EBin ODiv (EBin OAdd (fst ab) (snd ab)) (EConst 2%Q)) (combine a b).

Section Prepare.
  (** [points] is casadi's [collocation_points(_, "radau")]. *)
  Variable points : nat -> list Q.
  Variable degree : nat.

  (** dal:180-188 [_create_variable_approx] for a whole vector of [n] entries; the new
      symbols are counted from [first]. *)
  Definition vector_approx (tau : sym) (n : nat) (first : sym) : list expr * list sym :=
    create_polynomial_approximation points tau n degree first false.

  (** bip:25-55: the connection from a predecessor.  The sum of vectors of different sizes
      is refused, also where casadi repeats a scalar. *)
  Definition bip_input (c : conn) : cmd exo unit :=
    let (y, u) := c in
    fun s =>
      let m := o_model (e_problem s) in
      let (y_appr, y_par) := vector_approx (m_tau m) (length y) (e_next s) in
      let (u_appr, u_par) := vector_approx (m_tau m) (length u) (e_next s + length y * degree)%nat in
      (on_next (length y * degree + length u * degree) ;;;
       on_relax (fun r => mkRelax (rl_alg r ++ seq (length (m_alg m)) (length u)) (rl_y r) (rl_eq r)) ;;;
       cguard (fun _ => negb (length y =? length u)%nat) CasadiError ;;;
       on_problem (ocp_connect u (mean_vec y_appr u_appr) false) ;;;
       on_problem (on_model (include_theta y_par)) ;;;
       on_problem (on_model (include_theta u_par)) ;;;
       (fun s => on_relax (fun r => mkRelax (rl_alg r) (rl_y r ++ find_syms u (m_y (o_model (e_problem s)))) (rl_eq r)) s)) s.

  (** bip:57-80: the connection to a successor. *)
  Definition bip_output (c : conn) : cmd exo unit :=
    let (y, u) := c in
    fun s =>
      let m := o_model (e_problem s) in
      let (u_appr, u_par) := vector_approx (m_tau m) (length u) (e_next s) in
      let (y_appr, y_par) := vector_approx (m_tau m) (length y) (e_next s + length u * degree)%nat in
      (on_next (length u * degree + length y * degree) ;;;
       on_relax (fun r => mkRelax (rl_alg r) (rl_y r) (rl_eq r ++ seq (length (o_g_eq (e_problem s))) (length y))) ;;;
       cguard (fun _ => negb (length u =? length y)%nat) CasadiError ;;;
       on_problem (include_time_equality (sub_vec (mean_vec u_appr y_appr) (map EVar y)) "default") ;;;
       on_problem (on_model (include_theta u_par)) ;;;
       on_problem (on_model (include_theta y_par))) s.

  (** bip:24-80 for one node. *)
  Definition bip_exogenous (preds succs : list conn) : cmd exo unit :=
    run_all bip_input preds ;;; run_all bip_output succs.
End Prepare.

(** modelling/network/node.py:30: the attribute [model] of a node, given what it is made
    from and the variables of the model of its problem, which is a copy (ocp.py:86). *)
Definition node_model (given : option (list sym * list sym)) (of_problem : list sym * list sym) : list sym * list sym :=
  match given with Some m => m | None => of_problem end.

(** bip:82-117 [_get_node_theta].  [attr] has the variables [y] and [u] of the attribute
    [model] of the nodes. *)
Section Theta.
  Variables (opts : dal_options) (net : dnet) (attr : addr -> list sym * list sym) (last : results).
  Definition averaged_pred (a : addr) (pc : addr * conn) : list (res values) :=
    map (last_values opts net last (fst pc) "y") (find_syms (fst (snd pc)) (fst (attr (fst pc)))) ++
    map (last_values opts net last a "u") (find_syms (snd (snd pc)) (snd (attr a))).
  Definition averaged_succ (a : addr) (sc : addr * conn) : list (res values) :=
    map (last_values opts net last (fst sc) "u") (find_syms (snd (snd sc)) (snd (attr (fst sc)))) ++
    map (last_values opts net last a "y") (find_syms (fst (snd sc)) (fst (attr a))).
  Definition bip_theta (a : addr) : res (theta Q) :=
    extend_all (do_elements opts) []
      (flat_map (averaged_pred a) (dn_pred net a) ++ flat_map (averaged_succ a) (dn_succ net a)).
End Theta.

(** How the distributed method prepares the problem of a node
    (methods/network/distributedaugmetedlagrangian.py:101-188, "dal" below). *)
From Coq Require Import String.
From Verif Require Import Base UtilModel ExprModel LagModel SysModel NlpModel OcpModel NetModel.
Local Open Scope list_scope.
Local Open Scope cmd_scope.

(** dal:102-110: the lists of indices in [relax_dict] that are used. *)
Record relax := mkRelax { rl_alg : list nat; rl_y : list nat; rl_eq : list nat }.
(** The problem of the node, the number of the next new symbol, and the indices.  Every
    node has a problem of its own. *)
Record exo := mkExo { e_problem : ocp; e_next : sym; e_relax : relax }.

(** dal:123-133 and 157-165 with [_create_variable_approx] (dal:180-188): every entry gets
    its own polynomial and its own parameters. *)
Definition approximation (points : nat -> list Q) (tau : sym) (degree n : nat) (first : sym)
  : list expr * list sym :=
  let one i := create_polynomial_approximation points tau 1 degree (first + i * degree)%nat false in
  (flat_map (fun i => fst (one i)) (seq 0 n), flat_map (fun i => snd (one i)) (seq 0 n)).

Definition on_problem {A : Type} (c : cmd ocp A) : cmd exo A :=
  fun s => match c (e_problem s) with (o, r) => (mkExo o (e_next s) (e_relax s), r) end.
Definition on_relax (f : relax -> relax) : cmd exo unit :=
  cmodify (fun s => mkExo (e_problem s) (e_next s) (f (e_relax s))).
Definition on_next (n : nat) : cmd exo unit :=
  cmodify (fun s => mkExo (e_problem s) (e_next s + n)%nat (e_relax s)).

Section Prepare.
  (** [points] is casadi's [collocation_points(_, "radau")]; [skip] is
      [debug_skip_replace_by_approximation]. *)
  Variable points : nat -> list Q.
  Variables (degree : nat) (skip : bool).

  (** dal:113-149: the connection from a predecessor. *)
  Definition bind_input (c : conn) : cmd exo unit :=
    let (y, u) := c in
    fun s =>
      let m := o_model (e_problem s) in
      let (appr, par) := approximation points (m_tau m) degree (length y) (e_next s) in
      (on_next (length y * degree) ;;;
       on_relax (fun r => mkRelax (rl_alg r ++ seq (length (m_alg m)) (length u)) (rl_y r) (rl_eq r)) ;;;
       on_problem (ocp_connect u (if skip then map EVar y else appr) false) ;;;
       on_problem (on_model (include_theta par)) ;;;
       (fun s => on_relax (fun r => mkRelax (rl_alg r) (rl_y r ++ find_syms u (m_y (o_model (e_problem s)))) (rl_eq r)) s)) s.

  (** dal:151-178: the connection to a successor.  The difference of vectors of different
      sizes is refused, also where casadi repeats a scalar. *)
  Definition bind_output (c : conn) : cmd exo unit :=
    let (y, u) := c in
    fun s =>
      let m := o_model (e_problem s) in
      let (appr, par) := approximation points (m_tau m) degree (length u) (e_next s) in
      (on_next (length u * degree) ;;;
       on_relax (fun r => mkRelax (rl_alg r) (rl_y r) (rl_eq r ++ seq (length (o_g_eq (e_problem s))) (length y))) ;;;
       cguard (fun _ => negb (length u =? length y)%nat) CasadiError ;;;
       on_problem (include_time_equality (sub_vec (if skip then map EVar u else appr) (map EVar y)) "default") ;;;
       on_problem (on_model (include_theta par))) s.

  (** dal:112-178 for one node. *)
  Definition include_exogenous (preds succs : list conn) : cmd exo unit :=
    run_all bind_input preds ;;; run_all bind_output succs.
End Prepare.

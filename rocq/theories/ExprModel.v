(** Symbolic scalar expressions and the casadi operations on them that
    yaocptool uses. *)
From Coq Require Export QArith.
From Coq Require Import Qminmax.
From Verif Require Import Base.
Close Scope Q_scope.

(** A casadi symbol, identified by its node. *)
Definition sym := nat.

(** Scalar expressions.  [EFun f a] stands for any other unary operation of
    casadi (sin, exp, ...), named by [f].  [OMax] and [OMin] are casadi's [fmax] and
    [fmin], and [OGe] is the comparison [>=], with the value 1 or 0. *)
Inductive binop := OAdd | OSub | OMul | ODiv | OMax | OMin | OGe.
Inductive expr : Type :=
| EConst (q : Q)
| EVar (s : sym)
| EBin (o : binop) (a b : expr)
| EFun (f : nat) (a : expr).

Definition binop_eval (o : binop) : Q -> Q -> Q :=
  match o with
  | OAdd => Qplus
  | OSub => Qminus
  | OMul => Qmult
  | ODiv => Qdiv
  | OMax => Qmax
  | OMin => Qmin
  | OGe => fun a b => if Qle_bool b a then 1%Q else 0%Q
  end.

(** Value of an expression.  [F] interprets the unary operations and [env] the
    symbols.  A division by zero has the value 0 here, and inf or nan in the
    floating point code. *)
Fixpoint eval (F : nat -> Q -> Q) (env : sym -> Q) (e : expr) : Q :=
  match e with
  | EConst q => q
  | EVar s => env s
  | EBin o a b => binop_eval o (eval F env a) (eval F env b)
  | EFun f a => F f (eval F env a)
  end.

(** casadi [substitute(ex, v, vdef)]: all symbols of [v] are replaced at once.
    Casadi requires [v] to consist of distinct symbols. *)
Fixpoint subst_lookup (s : sym) (v : list sym) (vdef : list expr) : expr :=
  match v, vdef with
  | s' :: v', d :: vdef' => if Nat.eqb s s' then d else subst_lookup s v' vdef'
  | _, _ => EVar s
  end.
Fixpoint substitute (e : expr) (v : list sym) (vdef : list expr) : expr :=
  match e with
  | EConst q => EConst q
  | EVar s => subst_lookup s v vdef
  | EBin o a b => EBin o (substitute a v vdef) (substitute b v vdef)
  | EFun f a => EFun f (substitute a v vdef)
  end.

(** Symbols occurring in an expression. *)
Fixpoint symbols (e : expr) : list sym :=
  match e with
  | EConst _ => []
  | EVar s => [s]
  | EBin _ a b => symbols a ++ symbols b
  | EFun _ a => symbols a
  end.

(** casadi [depends_on(ex, vars)]. *)
Definition depends_on (e : expr) (vars : list sym) : bool :=
  existsb (fun s => memb Nat.eqb s vars) (symbols e).
Definition depends_on_vec (es : list expr) (vars : list sym) : bool :=
  existsb (fun e => depends_on e vars) es.

(** casadi [is_constant]. *)
Definition is_constant (e : expr) : bool :=
  match symbols e with [] => true | _ => false end.

(** yaocptool/util/util.py:191-204 [convert_expr_from_tau_to_time], also
    yaocptool/modelling/system_model.py:462-466.  [t_k] and [t_kp1] are numbers. *)
Definition convert_expr_from_tau_to_time (e : expr) (t tau : sym) (t_k t_kp1 : Q) : expr :=
  let d_t := (t_kp1 - t_k)%Q in
  substitute e [tau] [EBin ODiv (EBin OSub (EVar t) (EConst t_k)) (EConst d_t)].

(** yaocptool/modelling/system_model.py:456-460 [convert_expr_from_time_to_tau]. *)
Definition convert_expr_from_time_to_tau (e : expr) (t tau : sym) (t_k t_kp1 : Q) : expr :=
  let h := (t_kp1 - t_k)%Q in
  substitute e [t] [EBin OAdd (EBin OMul (EVar tau) (EConst h)) (EConst t_k)].

(** Valuation [env] with symbol [s] set to [q]. *)
Definition upd (env : sym -> Q) (s : sym) (q : Q) : sym -> Q :=
  fun s' => if Nat.eqb s' s then q else env s'.

(** Valuation in which the symbols of [v] take, at once, the values that the
    expressions [vdef] have under [env]. *)
Definition env_subst (F : nat -> Q -> Q) (env : sym -> Q) (v : list sym) (vdef : list expr)
  : sym -> Q := fun s => eval F env (subst_lookup s v vdef).

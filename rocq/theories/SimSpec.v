(** Specification vocabulary for DAE systems and simulation. *)
From Coq Require Import String.
From Verif Require Import Base ExprModel SysModel SysSpec SimModel.
Local Open Scope list_scope.

(** A point [env] and derivatives [dx] (one per differential equation) satisfy the
    equations of a DAE system. *)
Definition dae_solves (F : nat -> Q -> Q) (env : sym -> Q) (dx : list Q) (d : dae) : Prop :=
  Forall2 (fun q e => (q == eval F env e)%Q) dx (d_ode d) /\
  (forall e, In e (d_alg d) -> (eval F env e == 0)%Q).

(** Some equation of a system mentions [s]. *)
Definition dae_mentions (d : dae) (s : sym) : Prop :=
  exists e, In e (d_ode d ++ d_alg d) /\ mentions e s.

(** The options a user gave win over the time span, which wins over the configured
    defaults. *)
Definition winning_option (defaults user : options) (t_f t_0 : Q) (k : string) : option optval :=
  match dget String.eqb k user with
  | Some v => Some v
  | None => if String.eqb k "tf" then Some (OptNum t_f)
            else if String.eqb k "t0" then Some (OptNum t_0)
            else dget String.eqb k defaults
  end.

(** Controls and thetas given as one vector per element. *)
Definition per_element {A : Type} (l : list A) : dict nat A := enumerate l.

(** End point of a non-empty simulation. *)
Definition last_x (s : sim) : Q * list Q := last (s_x s) (0%Q, []).
Definition last_y (s : sim) : Q * list Q := last (s_y s) (0%Q, []).

(** The second trajectory after the first, without repeating the common point. *)
Definition then_sim (a b : sim) : sim :=
  mkSim (s_x a ++ tl (s_x b)) (s_y a ++ s_y b) (s_u a ++ s_u b).

(** Specification vocabulary for C100: the action of the exponential of a matrix. *)
From Coq Require Import QArith.
From Verif Require Import Base StoModel StoSpec ExmModel.
Local Open Scope list_scope.
Local Open Scope nat_scope.

(** Vectors with equal entries. *)
Definition same_vector (a b : list Q) : Prop := Forall2 Qeq a b.

Definition plus (a b : list Q) : list Q := map (fun ab => fst ab + snd ab)%Q (combine a b).
Definition scaled (c : Q) (a : list Q) : list Q := map (Qmult c) a.


(** A map between vectors with n entries that is linear. *)
Record linear (n : nat) (f : list Q -> list Q) : Prop := {
  lin_length : forall x, length x = n -> length (f x) = n;
  lin_same : forall x y, length x = n -> same_vector x y -> same_vector (f x) (f y);
  lin_plus : forall x y, length x = n -> length y = n -> same_vector (f (plus x y)) (plus (f x) (f y));
  lin_scaled : forall c x, length x = n -> same_vector (f (scaled c x)) (scaled c (f x)) }.

(** What is asked of the integrator, for linear equations: it gives a result, which depends only
    on the equation and is linear in the initial state. *)
Record linear_integrator (integrate : ode_rhs -> Q -> list Q -> list Q -> res (list Q)) : Prop := {
  li_result : forall n rhs p x, linear n (rhs p) -> length x = n -> exists y, integrate rhs 1%Q x p = Ok y /\ length y = n;
  li_same : forall n rhs p rhs' p' x x' y y', linear n (rhs p) -> linear n (rhs' p') ->
    (forall z, length z = n -> same_vector (rhs p z) (rhs' p' z)) -> length x = n -> same_vector x x' ->
    integrate rhs 1%Q x p = Ok y -> integrate rhs' 1%Q x' p' = Ok y' -> same_vector y y';
  li_plus : forall n rhs p x x' y y' z, linear n (rhs p) -> length x = n -> length x' = n ->
    integrate rhs 1%Q x p = Ok y -> integrate rhs 1%Q x' p = Ok y' -> integrate rhs 1%Q (plus x x') p = Ok z ->
    same_vector z (plus y y');
  li_scaled : forall n rhs p c x y z, linear n (rhs p) -> length x = n ->
    integrate rhs 1%Q x p = Ok y -> integrate rhs 1%Q (scaled c x) p = Ok z -> same_vector z (scaled c y) }.

(** For the example: one step of the explicit method of Euler. *)
Definition euler (rhs : ode_rhs) (t_f : Q) (x p : list Q) : res (list Q) := Ok (plus x (scaled t_f (rhs p x))).

(** Specification vocabulary for polynomial interpolation. *)
From Verif Require Import Base ExprModel.

(** Pairwise different numbers. *)
Definition distinct (l : list Q) : Prop :=
  forall j k, j < length l -> k < length l -> (nth j l 0 == nth k l 0)%Q -> j = k.

(** Value at [t] of the polynomial with coefficients [c], constant term first. *)
Fixpoint poly (c : list Q) (t : Q) : Q :=
  match c with
  | [] => 0%Q
  | a :: c' => (a + t * poly c' t)%Q
  end.

Fixpoint qsum (l : list Q) : Q :=
  match l with [] => 0%Q | a :: l' => (a + qsum l')%Q end.

(** The interpolation points in use. *)
Definition interpolation_points (points : nat -> list Q) (degree : nat) (with_zero : bool) : list Q :=
  if with_zero then 0%Q :: points degree else points degree.

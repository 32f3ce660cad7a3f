(** Vocabulary for the tables of the result of a distributed method. *)
From Coq Require Import String QArith.
From Verif Require Import Base DataModel FraModel FraSpec DfrModel.
Local Open Scope list_scope.

(** What pandas promises: one name for every column of both tables, and the names stay if no
    column is in both. *)
Definition suffixes (suffixed : list (string * string) -> list (string * string) -> list (string * string)) : Prop :=
  forall a b, length (suffixed a b) = (length a + length b)%nat /\
    ((forall c, In c a -> ~ In c b) -> suffixed a b = a ++ b).

(** What a row of the time [t] shows of one table: a row it has for the time, or nothing. *)
Definition row_shows (f : frame) (t : Q) (cells : list (option Q)) : Prop :=
  has_row f t cells \/ ((forall c, ~ has_row f t c) /\ cells = repeat None (length (f_columns f))).

(** No column is in two tables. *)
Fixpoint apart (fs : list frame) : Prop :=
  match fs with
  | [] => True
  | f :: fs' => Forall (fun g => forall c, In c (f_columns f) -> ~ In c (f_columns g)) fs' /\ apart fs'
  end.

(** Every column has the number of rows of the matrix. *)
Definition rectangular (m : mat) : Prop := Forall (fun c => length c = mrows m) (mcols m).

(** Example: two tanks, and the errors of two nodes: one constraint in two iterations, and
    two constraints in one. *)
Definition second_tank : dataset :=
  [("x"%string, mkEntry ["depth"]%string (Some 1%nat) [1; 4]%Q (mkMat 1 [[2]; [3]]%Q) "plot"%string)].
Definition two_errors : list mat := [mkMat 1 [[5]; [6]]%Q; mkMat 2 [[7; 8]]%Q].

(** Specification of the search of algebraic variables and of the inclusion of variables. *)
From Verif Require Import Base ExprModel AlvModel.
Local Open Scope list_scope.

(** The numbers given for an optional argument. *)
Definition of_option (a : option (list Q)) : list Q := match a with Some v => v | None => [] end.
(** The symbols given for one kind of variables. *)
Definition all_of (a : option vars) : list sym :=
  match a with None => [] | Some (Vec v) => v | Some (Several l) => concat l end.

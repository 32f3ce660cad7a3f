(** Model of yaocptool/util/util.py:207-230 [expm]: the exponential of a matrix, by an
    integrator. *)
From Coq Require Import QArith.
From Verif Require Import Base StoModel.
Local Open Scope list_scope.
Local Open Scope nat_scope.

(** casadi [vec] of a numeric matrix given by its rows: the columns one after another. *)
Definition vec_of (a : matrix) : list Q := concat (transpose a).

(** The symbol [a_mx] of n rows and n columns as a function of the parameter [vec(a_mx)]
    (util.py:219, 221): entry (i, j) is entry j n + i of the parameter. *)
Definition matrix_of (n : nat) (p : list Q) : matrix :=
  map (fun i => map (fun j => nth (j * n + i) p 0%Q) (seq 0 n)) (seq 0 n).

(** The right hand side of an ordinary differential equation: parameter, state, derivative. *)
Definition ode_rhs := list Q -> list Q -> list Q.

(** util.py:220-221: the equation that is given to the integrator. *)
Definition expm_rhs (n : nat) : ode_rhs := fun p x => mat_vec (matrix_of n p) x.

(** Calls of a function one after another, stopping at the first that raises (casadi's [map]). *)
Fixpoint map_calls {A B : Type} (f : A -> res B) (l : list A) : res (list B) :=
  match l with
  | [] => Ok []
  | a :: l' => match f a with
               | Raise e => Raise e
               | Ok b => match map_calls f l' with Raise e => Raise e | Ok bs => Ok (b :: bs) end
               end
  end.

(** util.py:207-230.  [integrate rhs t_f x0 p] is casadi's integrator; it is mapped over the
    columns of the identity with the same parameter for each (226-229).  The matrix whose columns
    are the results is given by its rows.  A matrix that is not square is refused since the
    equation has not the size of the state (223), and a matrix without columns since nothing can
    be mapped over it (224). *)
Definition expm (integrate : ode_rhs -> Q -> list Q -> list Q -> res (list Q)) (a : matrix) : res matrix :=
  let dim := columns a in
  if negb (length a =? dim) then Raise CasadiError
  else if dim =? 0 then Raise CasadiError
  else match map_calls (fun x0 => integrate (expm_rhs dim) 1%Q x0 (vec_of a)) (eye dim) with
       | Raise e => Raise e
       | Ok cols => Ok (map (fun i => map (fun c => nth i c 0%Q) cols) (seq 0 dim))
       end.

(** Lagrange polynomials and polynomial approximations of variables.  Numbers are
    exact rationals where the code uses floating point. *)
From Verif Require Import Base ExprModel.

(** The loop that multiplies one basis polynomial together:
    yaocptool/util/util.py:270-274 and
    yaocptool/methods/base/solutionmethodsbase.py:145-148.  [idx] are the loop
    indices, [tau] the symbolic variable.  Where two points coincide the code gets
    inf or nan. *)
Definition lagrange_ell (tau : sym) (tau_root : list Q) (idx : list nat) (j : nat) : expr :=
  fold_left
    (fun ell k =>
       if Nat.eqb k j then ell
       else EBin OMul ell
              (EBin ODiv (EBin OSub (EVar tau) (EConst (nth k tau_root 0%Q)))
                         (EConst (nth j tau_root 0%Q - nth k tau_root 0%Q)%Q)))
    idx (EConst 1%Q).

(** yaocptool/util/util.py:258-278 [_create_lagrangian_polynomial_basis].
    [points] is casadi's [collocation_points(_, "radau")]. *)
Definition util_basis (points : nat -> list Q) (tau : sym) (degree : nat) (point_at_zero : bool)
  : list expr :=
  let tau_root := if point_at_zero then 0%Q :: points degree else points degree in
  let idx := seq 0 (length tau_root) in
  map (lagrange_ell tau tau_root idx) idx.

(** yaocptool/methods/base/solutionmethodsbase.py:131-151
    [SolutionMethodsBase._create_lagrangian_polynomial_basis]; [tau] is given or the
    model's. *)
Definition method_basis (points : nat -> list Q) (tau : sym) (degree starting_index : nat)
  : list expr :=
  let tau_root := 0%Q :: points degree in
  let idx := seq starting_index (degree + 1 - starting_index) in
  map (lagrange_ell tau tau_root idx) idx.

(** [vertcat] of [SX.sym(name[s], 1, n_par)] for s in range(size): new symbols, row
    by row, from [first] on.  Names are not modelled. *)
Definition point_sym (first : sym) (n_par i j : nat) : sym := first + i * n_par + j.

(** casadi [vec]: column by column. *)
Definition vec_points (first : sym) (size n_par : nat) : list sym :=
  flat_map (fun j => map (fun i => point_sym first n_par i j) (seq 0 size)) (seq 0 n_par).

(** [SX(sum(ell_list[j] * points[:, j] for j in range(n)))]: a column of [size]
    rows; a sum without terms is the number 0, whatever the size. *)
Definition combination (ell_list : list expr) (first : sym) (size n_par n : nat) : list expr :=
  match n with
  | 0 => [EConst 0%Q]
  | _ => map (fun i =>
                fold_left (fun acc j =>
                             EBin OAdd acc
                               (EBin OMul (nth j ell_list (EConst 0%Q))
                                          (EVar (point_sym first n_par i j))))
                          (seq 0 n) (EConst 0%Q))
             (seq 0 size)
  end.

(** yaocptool/util/util.py:281-320 [create_polynomial_approximation].  Returns
    (polynomial, parameters). *)
Definition create_polynomial_approximation (points : nat -> list Q) (tau : sym)
    (size degree : nat) (first : sym) (point_at_zero : bool) : list expr * list sym :=
  let n_par := if point_at_zero && (1 <? degree) then degree + 1 else degree in
  let pol := if degree =? 1 then map (fun i => EVar (point_sym first n_par i 0)) (seq 0 size)
             else combination (util_basis points tau degree point_at_zero) first size n_par n_par in
  (pol, vec_points first size n_par).

(** yaocptool/methods/base/solutionmethodsbase.py:153-197
    [create_variable_polynomial_approximation].  For size 0 the matrix of points has
    [degree] columns in every case, so reading column [degree] raises. *)
Definition create_variable_polynomial_approximation (points : nat -> list Q) (tau : sym)
    (size degree : nat) (first : sym) (point_at_t0 : bool) : res (list expr * list sym) :=
  if degree =? 1 then
    Ok (map (fun i => EVar (point_sym first 1 i 0)) (seq 0 size), vec_points first size 1)
  else if point_at_t0 then
    if size =? 0 then Raise CasadiError
    else Ok (combination (method_basis points tau degree 0) first size (degree + 1) (degree + 1),
             vec_points first size (degree + 1))
  else Ok (combination (method_basis points tau degree 1) first size degree degree,
           vec_points first size degree).

(** yaocptool/methods/base/solutionmethodsbase.py:220-230 [unvec]: casadi [reshape]
    to [numel // degree] rows and [degree] columns, given here as the list of its
    columns; casadi refuses when the sizes do not match, Python when [degree] is 0. *)
Fixpoint columns {A : Type} (n_lines degree : nat) (v : list A) : list (list A) :=
  match degree with
  | 0 => []
  | S d => firstn n_lines v :: columns n_lines d (skipn n_lines v)
  end.
Definition unvec {A : Type} (v : list A) (degree : nat) : res (list (list A)) :=
  if degree =? 0 then Raise ZeroDivisionErr
  else let n_lines := length v / degree in
       if n_lines * degree =? length v then Ok (columns n_lines degree v) else Raise CasadiError.

(** Specification of the statistics of polynomial chaos expansions. *)
From Coq Require Import QArith.
From Verif Require Import Base StoModel StoSpec.
Local Open Scope list_scope.
Local Open Scope nat_scope.

(** The moments of the standard normal distribution: 1, 0, 1, 0, 3, 0, 15, ... *)
Fixpoint moment (k : nat) : Q :=
  match k with
  | 0 => 1%Q
  | 1 => 0%Q
  | S (S k' as k1) => (inject_Z (Z.of_nat k1) * moment k')%Q
  end.

(** A distribution of finitely many points with weights, and the mean of a function. *)
Definition distribution : Type := list (Q * list Q).
Definition mean_over (D : distribution) (f : list Q -> Q) : Q :=
  fold_right (fun wx acc => fst wx * f (snd wx) + acc)%Q 0%Q D.
(** A sample: all points have the same weight. *)
Definition sample (xs : list (list Q)) : distribution := map (fun x => (1 / inject_Z (Z.of_nat (length xs)), x)%Q) xs.

(** x_1^e_1 ... x_n^e_n *)
Definition power_product (e : list nat) (x : list Q) : Q :=
  fold_right Qmult 1%Q (map (fun dv => snd dv ^ Z.of_nat (fst dv))%Q (combine e x)).
Definition product (l : list Q) : Q := fold_right Qmult 1%Q l.
(** It has the moments of [n] independent standard normal quantities up to degree [d]. *)
Definition normal_to (n d : nat) (D : distribution) : Prop :=
  (forall w x, In (w, x) D -> length x = n) /\
  forall e, length e = n -> degree_sum e <= d ->
    (mean_over D (power_product e) == product (map moment e))%Q.

(** The expansion with coefficients [a], at the point [x] where the basis has the values [psi]. *)
Definition combination (a psi : list Q) : Q := fold_right Qplus 0%Q (map (fun av => fst av * snd av)%Q (combine a psi)).
Definition expands (n order : nat) (a : list Q) (f : list Q -> Q) : Prop :=
  length a = n_pol_parameters n order /\
  forall x psi, length x = n -> basis n order x = Ok psi -> (f x == combination a psi)%Q.

(** Mean and covariance of functions of the uncertain quantities. *)
Definition covariance (D : distribution) (f g : list Q -> Q) : Q :=
  mean_over D (fun x => (f x - mean_over D f) * (g x - mean_over D g))%Q.

(** The coefficients of polynomial number [i] of a basis of [n]. *)
Definition unit_at (n i : nat) : list Q := map (fun k => if k =? i then 1%Q else 0%Q) (seq 0 n).

Definition factorials (e : list nat) : Q := product (map (fun k => inject_Z (Z.of_nat (fact k))) e).

(** Weights at -2, ..., 2 with the moments of the normal distribution up to degree five,
    and at -5, ..., 5 up to degree eleven. *)
Definition five_points : distribution :=
  [(1#12, [-2]); (1#6, [-1]); (1#2, [0]); (1#6, [1]); (1#12, [2])]%Q.
Definition eleven_points : distribution :=
  [(1#604800, [-5]); (1#7560, [-4]); (179#40320, [-3]); (17#315, [-2]); (697#2880, [-1]); (359#900, [0]);
   (697#2880, [1]); (17#315, [2]); (179#40320, [3]); (1#7560, [4]); (1#604800, [5])]%Q.
(** Twelve points with the weights of the five. *)
Definition twelve : list (list Q) := [[-2]; [2]; [-1]; [-1]; [1]; [1]; [0]; [0]; [0]; [0]; [0]; [0]]%Q.
(** The coefficients of the last polynomial of order ten in one quantity. *)
Definition tenth : list Q := (repeat 0 10 ++ [1])%Q.

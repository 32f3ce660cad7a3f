(** Specification vocabulary for the estimators. *)
From mathcomp Require Import all_ssreflect all_algebra.
From Verif Require Import KalModel.
Set Implicit Arguments.
Unset Strict Implicit.
Unset Printing Implicit Defensive.
Import Order.TTheory GRing.Theory Num.Theory.
Local Open Scope ring_scope.

Section Spec.
Variable F : realFieldType.

(** Symmetric, and symmetric positive semidefinite matrices. *)
Definition symmetric (n : nat) (M : 'M[F]_n) : Prop := forall i j, M i j = M j i.
Definition covariance (n : nat) (M : 'M[F]_n) : Prop :=
  symmetric M /\ forall v : 'I_n -> F, 0 <= \sum_i \sum_j v i * M i j * v j.

(** Symmetric positive definite matrices. *)
Definition positive (n : nat) (M : 'M[F]_n) : Prop :=
  symmetric M /\ forall v : 'I_n -> F, (exists i, v i != 0) -> 0 < \sum_i \sum_j v i * M i j * v j.

(** What is required of casadi's [chol]: a factor it returns is a square root. *)
Definition factors (n : nat) (chol : 'M[F]_n -> res 'M[F]_n) : Prop :=
  forall A r, chol A = Ok r -> r^T *m r = A.

(** Weighted mean of vectors, and weighted sum of the products of the deviations of two
    lists of vectors from two points. *)
Definition mean_of (n : nat) (w : seq F) (xs : seq 'cV[F]_n) (i : 'I_n) : F :=
  \sum_(wx <- zip w xs) wx.1 * wx.2 i 0.
Definition cov_of (n m : nat) (w : seq F) (xs : seq 'cV[F]_n) (a : 'cV[F]_n) (zs : seq 'cV[F]_m) (b : 'cV[F]_m)
    (i : 'I_n) (j : 'I_m) : F :=
  \sum_(wxz <- zip w (zip xs zs)) wxz.1 * ((wxz.2.1 i 0 - a i 0) * (wxz.2.2 j 0 - b j 0)).

(** The update of the Kalman filter for the prediction [x] with covariance [p], the
    measurement matrix [c] with noise [r], the expected measurement [z] and the
    measurement [y]. *)
Definition kalman_update (n m : nat) (p : 'M[F]_n) (c : 'M[F]_(m, n)) (r : 'M[F]_m)
    (x : 'cV[F]_n) (z y : 'cV[F]_m) (x' : 'cV[F]_n) (p' : 'M[F]_n) : Prop :=
  exists k : 'M[F]_(n, m),
    k *m (c *m p *m c^T + r) = p *m c^T /\ x' = x + k *m (y - z) /\ p' = (1%:M - k *m c) *m p.

(** Squared length. *)
Definition norm2 (n : nat) (v : 'cV[F]_n) : F := \sum_i v i 0 ^+ 2.
End Spec.

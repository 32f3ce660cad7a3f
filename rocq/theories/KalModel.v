(** Model of the numerical core of the estimators: one step of the unscented, the
    extended and the polynomial chaos Kalman filter, and the least squares factor.

    Matrices are mathcomp matrices over an ordered field, so sizes agree by typing:
    calls with arguments of the wrong size are not modelled.  The arithmetic is exact
    where the code uses floats.  The filters' data sets and printed messages are left
    out. *)
From mathcomp Require Import all_ssreflect all_algebra.
From Verif Require Base.
Set Implicit Arguments.
Unset Strict Implicit.
Unset Printing Implicit Defensive.
Import GRing.Theory.
Local Open Scope ring_scope.

Notation res := Base.res.
Notation Ok := Base.Ok.
Notation Raise := Base.Raise.

(** [f] applied to every element, stopping at the first exception. *)
Fixpoint map_res (A B : Type) (f : A -> res B) (l : seq A) : res (seq B) :=
  match l with
  | [::] => Ok [::]
  | a :: l' => match f a with
               | Raise e => Raise e
               | Ok b => match map_res f l' with
                         | Raise e => Raise e
                         | Ok bs => Ok (b :: bs)
                         end
               end
  end.

Section Kalman.
Variable F : realFieldType.

(** casadi [solve(A, B)] for a square [A]; a singular matrix is refused. *)
Definition solve (n p : nat) (A : 'M[F]_n) (B : 'M[F]_(n, p)) : res 'M[F]_(n, p) :=
  if A \in unitmx then Ok (invmx A *m B) else Raise Base.CasadiError.
(** casadi [inv(A)]. *)
Definition inv (n : nat) (A : 'M[F]_n) : res 'M[F]_n :=
  if A \in unitmx then Ok (invmx A) else Raise Base.CasadiError.

(** Python's [sum] of the products of weights and matrices. *)
Definition weighted (p q : nat) (w : seq F) (xs : seq 'M[F]_(p, q)) : 'M[F]_(p, q) :=
  \sum_(wx <- zip w xs) wx.1 *: wx.2.

(** ** Unscented Kalman filter *)

(** unscented_kalman_filter.py:292-296: the tuning parameters. *)
Definition alpha : F := (10%:R ^+ 3)^-1.
Definition kappa : F := 0.
Definition beta : F := 2%:R.
Definition lamb (ell : nat) : F := alpha ^+ 2 * (ell%:R + kappa).

(** unscented_kalman_filter.py:306-311: the weights; Python raises when it divides by
    zero. *)
Definition weights (ell : nat) : res (seq F * seq F) :=
  let c := ell%:R + lamb ell in
  if c == 0 then Raise Base.ZeroDivisionErr
  else Ok (lamb ell / c :: nseq (2 * ell) (1 / (2%:R * c)),
           (lamb ell / c + (1 - alpha ^+ 2 + beta)) :: nseq (2 * ell) (1 / (2%:R * c))).

(** [M[:, k]] *)
Definition column (p n : nat) (M : 'M[F]_(p, n)) (k : nat) : 'cV[F]_p :=
  match insub k : option 'I_n with Some k' => col k' M | None => 0 end.
(** unscented_kalman_filter.py:298-304: the points around the mean. *)
Definition points (n : nat) (mean : 'cV[F]_n) (root : 'M[F]_n) : seq 'cV[F]_n :=
  mean :: [seq mean + (if (i < n)%N then 1 else -1) *: column root (i %% n) | i <- iota 0 (2 * n)].

(** unscented_kalman_filter.py:284-313 [_get_sigma_points_and_weights].  [chol] is
    casadi's Cholesky factorisation (an upper triangular factor). *)
Definition sigma_points (n : nat) (chol : 'M[F]_n -> res 'M[F]_n) (mean : 'cV[F]_n) (cov : 'M[F]_n)
  : res (seq 'cV[F]_n * seq F * seq F) :=
  match chol ((n%:R + lamb n) *: cov) with
  | Raise e => Raise e
  | Ok r => match weights n with
            | Raise e => Raise e
            | Ok w => Ok (points mean r^T, w.1, w.2)
            end
  end.

(** The results of a step: corrected mean and covariance of states and algebraic
    variables, and the predicted covariance. *)
Record estimate (n : nat) : Type := mkEstimate {
  e_mean : 'cV[F]_n;
  e_cov : 'M[F]_n;
  e_cov_pred : 'M[F]_n
}.

(** unscented_kalman_filter.py:185-222 and 233-234: the correction, given the predicted
    samples [aug] of states and algebraic variables and [meas] of measurements. *)
Definition unscented_correct (n m : nat) (wm wc : seq F) (aug : seq 'cV[F]_n) (meas : seq 'cV[F]_m)
    (r_v : 'M[F]_n) (r_n : 'M[F]_m) (y : 'cV[F]_m) : res (estimate n) :=
  let x_pred := weighted wm aug in
  let meas_pred := weighted wm meas in
  let cov_x := weighted wc [seq (a - x_pred) *m (a - x_pred)^T | a <- aug] + r_v in
  let cov_meas := weighted wc [seq (z - meas_pred) *m (z - meas_pred)^T | z <- meas] + r_n in
  let cov_xmeas := weighted wc [seq (az.1 - x_pred) *m (az.2 - meas_pred)^T | az <- zip aug meas] in
  match solve cov_meas^T cov_xmeas^T with
  | Raise e => Raise e
  | Ok s =>
      let gain := s^T in
      Ok (mkEstimate (x_pred + gain *m (y - meas_pred))
                     (cov_x - gain *m (cov_meas *m gain^T)) cov_x)
  end.

(** unscented_kalman_filter.py:143-254 [_estimate_standard_ukf] for [nx] states and [ny]
    algebraic variables.  [simulate] gives the final states and algebraic variables for
    an initial state, [measure] is [_get_measurement_from_prediction]; the control, the
    parameters and the time are fixed.  The noise [r_v] is a full matrix. *)
Definition unscented_step (nx ny m : nat) (chol : 'M[F]_nx -> res 'M[F]_nx)
    (simulate : 'cV[F]_nx -> res ('cV[F]_nx * 'cV[F]_ny))
    (measure : 'cV[F]_nx -> 'cV[F]_ny -> res 'cV[F]_m)
    (r_v : 'M[F]_nx) (r_n : 'M[F]_m) (mean : 'cV[F]_nx) (cov : 'M[F]_nx) (y : 'cV[F]_m)
  : res (estimate (nx + ny)) :=
  match sigma_points chol mean cov with
  | Raise e => Raise e
  | Ok (pts, wm, wc) =>
      match map_res (fun p => match simulate p with
                              | Raise e => Raise e
                              | Ok s => match measure s.1 s.2 with
                                        | Raise e => Raise e
                                        | Ok z => Ok (col_mx s.1 s.2, z)
                                        end
                              end) pts with
      | Raise e => Raise e
      | Ok l =>
          match unscented_correct wm wc [seq az.1 | az <- l] [seq az.2 | az <- l]
                                  (block_mx r_v 0 0 0) r_n y with
          | Raise e => Raise e
          | Ok r => match measure (usubmx (e_mean r)) (dsubmx (e_mean r)) with
                    | Raise e => Raise e
                    | Ok _ => Ok r
                    end
          end
      end
  end.
(** unscented_kalman_filter.py:239-243: what the filter keeps for the next step. *)
Definition next_state (nx ny : nat) (r : estimate (nx + ny)) : 'cV[F]_nx * 'M[F]_nx :=
  (usubmx (e_mean r), ulsubmx (e_cov r)).

(** Calls of [estimate] one after the other, each with its own control (so its own
    [simulate] and [measure]) and measurement; the results in order. *)
Fixpoint unscented_run (nx ny m : nat) (chol : 'M[F]_nx -> res 'M[F]_nx) (r_v : 'M[F]_nx) (r_n : 'M[F]_m)
    (mean : 'cV[F]_nx) (cov : 'M[F]_nx)
    (calls : seq (('cV[F]_nx -> res ('cV[F]_nx * 'cV[F]_ny)) *
                  ('cV[F]_nx -> 'cV[F]_ny -> res 'cV[F]_m) * 'cV[F]_m)) : res (seq (estimate (nx + ny))) :=
  match calls with
  | [::] => Ok [::]
  | (simulate, measure, y) :: calls' =>
      match unscented_step chol simulate measure r_v r_n mean cov y with
      | Raise e => Raise e
      | Ok r => match unscented_run chol r_v r_n (next_state r).1 (next_state r).2 calls' with
                | Raise e => Raise e
                | Ok rs => Ok (r :: rs)
                end
      end
  end.

(** ** Extended Kalman filter *)

(** extended_kalman_filter.py:297-299: the predicted covariance. *)
Definition p_update (n nx : nat) (trans p : 'M[F]_n) (gamma : 'M[F]_(n, nx)) (q : 'M[F]_nx) : 'M[F]_n :=
  trans *m (p *m trans^T) + gamma *m (q *m gamma^T).

(** extended_kalman_filter.py:194-219: gain and correction for the prediction [x_pred],
    the measurement matrix [g] and the predicted measurement [meas_pred]. *)
Definition extended_correct (n m : nat) (p_pred : 'M[F]_n) (g : 'M[F]_(m, n)) (r_n : 'M[F]_m)
    (x_pred : 'cV[F]_n) (meas_pred y : 'cV[F]_m) : res (estimate n) :=
  match inv (g *m (p_pred *m g^T) + r_n) with
  | Raise e => Raise e
  | Ok s =>
      let gain := (p_pred *m g^T) *m s in
      Ok (mkEstimate (x_pred + gain *m (y - meas_pred)) ((1%:M - gain *m g) *m p_pred) p_pred)
  end.

(** extended_kalman_filter.py:143-234 [estimate].  [linearise] gives the transition
    matrix, the noise matrix and the measurement matrix at the prediction. *)
Definition extended_step (nx ny m : nat)
    (simulate : 'cV[F]_nx -> res ('cV[F]_nx * 'cV[F]_ny))
    (linearise : 'cV[F]_nx -> 'cV[F]_ny ->
                 res ('M[F]_(nx + ny) * 'M[F]_(nx + ny, nx) * 'M[F]_(m, nx + ny)))
    (measure : 'cV[F]_nx -> 'cV[F]_ny -> res 'cV[F]_m)
    (r_v : 'M[F]_nx) (r_n : 'M[F]_m) (mean : 'cV[F]_nx) (p_aug : 'M[F]_(nx + ny)) (y : 'cV[F]_m)
  : res (estimate (nx + ny)) :=
  match simulate mean with
  | Raise e => Raise e
  | Ok s =>
      match linearise s.1 s.2, measure s.1 s.2 with
      | Ok (trans, gamma, g), Ok z =>
          match extended_correct (p_update trans p_aug gamma r_v) g r_n (col_mx s.1 s.2) z y with
          | Raise e => Raise e
          | Ok r => match measure (usubmx (e_mean r)) (dsubmx (e_mean r)) with
                    | Raise e => Raise e
                    | Ok _ => Ok r
                    end
          end
      | Raise e, _ => Raise e
      | _, Raise e => Raise e
      end
  end.

(** Calls of [estimate] one after the other; extended_kalman_filter.py:221-224: the next
    call starts at the corrected states with the covariance of states and algebraic
    variables. *)
Fixpoint extended_run (nx ny m : nat) (r_v : 'M[F]_nx) (r_n : 'M[F]_m)
    (mean : 'cV[F]_nx) (p_aug : 'M[F]_(nx + ny))
    (calls : seq (('cV[F]_nx -> res ('cV[F]_nx * 'cV[F]_ny)) *
                  ('cV[F]_nx -> 'cV[F]_ny ->
                   res ('M[F]_(nx + ny) * 'M[F]_(nx + ny, nx) * 'M[F]_(m, nx + ny))) *
                  ('cV[F]_nx -> 'cV[F]_ny -> res 'cV[F]_m) * 'cV[F]_m)) : res (seq (estimate (nx + ny))) :=
  match calls with
  | [::] => Ok [::]
  | (simulate, linearise, measure, y) :: calls' =>
      match extended_step simulate linearise measure r_v r_n mean p_aug y with
      | Raise e => Raise e
      | Ok r => match extended_run r_v r_n (usubmx (e_mean r)) (e_cov r) calls' with
                | Raise e => Raise e
                | Ok rs => Ok (r :: rs)
                end
      end
  end.

(** ** Polynomial chaos *)

(** stochastic/pce.py:540-545: the least squares factor for the matrix [psi] of the
    basis at the samples. *)
Definition ls_factor (s k : nat) (chol : 'M[F]_k -> res 'M[F]_k) (psi : 'M[F]_(s, k)) (reg : F)
  : res 'M[F]_(k, s) :=
  match chol (psi^T *m psi + reg *: 1%:M) with
  | Raise e => Raise e
  | Ok r => match solve r 1%:M with
            | Raise e => Raise e
            | Ok x => Ok ((x *m x^T) *m psi^T)
            end
  end.

(** pce_kalman_filter.py:186-199 and 222-232: row [i] holds the coefficients of quantity [i]; the
    columns of [xs] are the samples. *)
Definition coefficients (n s k : nat) (l : 'M[F]_(k, s)) (xs : 'M[F]_(n, s)) : 'M[F]_(n, k) :=
  (l *m xs^T)^T.
(** pce_kalman_filter.py:201-208, 234-249: the sums over [range(1, n_samples)] of the
    products of coefficients.  A number of samples above the number of coefficients
    reads beyond the end. *)
Definition chaos_cov (n m s k : nat) (a : 'M[F]_(n, k)) (b : 'M[F]_(m, k)) : res 'M[F]_(n, m) :=
  if [&& (k < s)%N, (1 < s)%N, (0 < n)%N & (0 < m)%N] then Raise Base.CasadiError
  else Ok (\matrix_(i, j) \sum_(c < k | (0 < c < s)%N) a i c * b j c).
(** pce_kalman_filter.py:117-145 and 162-254 [estimate], [_priori_update] for the
    predicted samples [xs] of the states and [zs] of the measurements. *)
Definition chaos_correct (n m s k : nat) (l : 'M[F]_(k.+1, s)) (xs : 'M[F]_(n, s)) (zs : 'M[F]_(m, s))
    (r_v : 'M[F]_n) (r_n : 'M[F]_m) (y : 'cV[F]_m) : res (estimate n) :=
  let a := coefficients l xs in
  let b := coefficients l zs in
  let x_pred := col ord0 a in
  let meas_pred := col ord0 b in
  match chaos_cov s a a, chaos_cov s b b, chaos_cov s a b with
  | Ok p_x, Ok p_y, Ok p_xy =>
      match solve (p_y + r_n)^T p_xy^T with
      | Raise e => Raise e
      | Ok g =>
          let gain := g^T in
          Ok (mkEstimate (x_pred + gain *m (y - meas_pred))
                         ((p_x + r_v) - gain *m ((p_y + r_n) *m gain^T)) (p_x + r_v))
      end
  | Raise e, _, _ => Raise e
  | _, Raise e, _ => Raise e
  | _, _, Raise e => Raise e
  end.
End Kalman.

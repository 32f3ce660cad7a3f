(** Statistics of polynomial chaos expansions (stochastic/pce.py, "pce" below, and
    estimation/pce_kalman_filter.py, "pkf"). *)
From Coq Require Import QArith.
From Verif Require Import Base UtilModel StoModel.
Local Open Scope list_scope.
Local Open Scope nat_scope.
Local Open Scope res_scope.

(** pce:553-555: the squares of the basis at the points [xs] are added to [acc]. *)
Fixpoint add_squares (n order : nat) (xs : list (list Q)) (acc : list Q) : res (list Q) :=
  match xs with
  | [] => Ok acc
  | x :: xs' =>
      psi <- basis n order x ;;
      add_squares n order xs' (map (fun av => fst av + snd av * snd av)%Q (combine acc psi))
  end.
(** pce:549-556: the means of the squares of the basis over a sample (drawn at random in the
    code); the sum starts with zeros. *)
Definition expectation_vector (n order : nat) (xs : list (list Q)) : res (list Q) :=
  s <- add_squares n order xs (repeat 0%Q (n_pol_parameters n order)) ;;
  Ok (map (fun v => v / inject_Z (Z.of_nat (length xs)))%Q s).

(** pce:232-234, 254-255: the mean for coefficients [par]. *)
Definition pce_mean (par : list Q) : res Q :=
  match par with a :: _ => Ok a | [] => Raise CasadiError end.
(** pce:235-239, 251-253: the variance; casadi refuses vectors of different sizes. *)
Definition pce_variance (par ex : list Q) : res Q :=
  if length (tl par) =? length (tl ex)
  then Ok (fold_right (fun av acc => fst av * fst av * snd av + acc)%Q 0%Q (combine (tl par) (tl ex)))
  else Raise CasadiError.

(** pkf:203-208, 236-249: one entry of the covariance of the filter, without noise:
    coefficients number 1 to [n_samples - 1]. *)
Definition filter_covariance (n_samples : nat) (a b : list Q) : res Q :=
  fold_left (fun acc k =>
    s <- acc ;;
    match nth_error a k, nth_error b k with
    | Some x, Some y => Ok (s + x * y)%Q
    | _, _ => Raise CasadiError
    end) (seq 1 (n_samples - 1)) (Ok 0%Q).

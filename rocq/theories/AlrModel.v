(** Results of the augmented Lagrangian method (methods/augmented_lagrangian.py, "al" below,
    and methods/base/solutionmethodsbase.py, "smb"). *)
From Coq Require Import String.
From Verif Require Import Base UtilModel ExprModel SysModel OcpModel DiscModel ResModel AugModel.
Local Open Scope list_scope.
Local Open Scope nat_scope.
Local Open Scope cmd_scope.

(** smb:220-230 [unvec]: the columns of the matrix with [degree] columns.  A division by
    zero is an error of Python; casadi's [reshape] does not change the number of entries. *)
Definition unvec (degree : nat) (v : list Q) : res (list (list Q)) :=
  if degree =? 0 then Raise ZeroDivisionErr
  else
    let rows := length v / degree in
    if rows * degree =? length v
    then Ok (map (fun d => firstn rows (skipn (d * rows) v)) (seq 0 degree))
    else Raise CasadiError.

(** al:809-816, 818-824 and 829-835: column [d] for every element and point.  [get] looks
    the vector of an element up; [degree] is the one of the solver of the relaxed problem. *)
Definition by_point (opts : al_options) (degree : nat) (get : nat -> res (list Q)) : res (list (list (list Q))) :=
  res_map (fun el =>
    res_map (fun d =>
      match get el with
      | Raise e => Raise e
      | Ok v => match unvec degree v with
                | Raise e => Raise e
                | Ok m => at_index m d CasadiError
                end
      end) (seq 0 (al_degree opts))) (seq 0 (al_elements opts)).

(** al:276-286 [time_interpolation_nu]. *)
Definition time_interpolation_nu (points : nat -> list Q) (opts : al_options) (dt : Q) (bps : list Q)
  : res (list (list Q)) :=
  res_map (fun el =>
    res_map (fun j =>
      match at_index bps el IndexError, at_index (points (al_degree opts)) j IndexError with
      | Ok b, Ok c => Ok (b + dt * c)%Q
      | Raise e, _ => Raise e
      | _, Raise e => Raise e
      end) (seq 0 (al_degree opts))) (seq 0 (al_elements opts)).

(** al:228-237: the first violations, zero at every point; [n_alg] and [n_eq] are the numbers
    of relaxed algebraic equations and time equalities.  Their vectors are kept by columns. *)
Definition start_violations (opts : al_options) (n_alg n_eq : nat) (s : aug_state) : aug_state :=
  let zeros n := repeat (repeat (repeat 0%Q n) (al_degree opts)) (al_elements opts) in
  set_st_violations (zeros n_alg) (zeros n_eq) s.

(** or:47 [other_data] of a result. *)
Definition with_other (other : dict string (list (list (list Q)) * list (list Q))) (r : opt_result) : opt_result :=
  mkResult (w_elements r) (w_degree_control r) (w_t_0 r) (w_t_f r) (w_breakpoints r)
    (w_x_names r) (w_y_names r) (w_u_names r) (w_theta_names r) (w_x r) (w_y r) (w_u r)
    (w_x_time r) (w_y_time r) (w_u_time r) other (w_x_0 r) (w_p r) (w_theta r)
    (w_p_opt r) (w_theta_opt r) (w_eta r) (w_cost r).

(** The vector of an element among multipliers and among violations. *)
Definition nu_of (s : aug_state) (el : nat) : res (list Q) :=
  match dget Nat.eqb el (st_nu s) with Some v => Ok v | None => Raise KeyError end.
Definition violation_of (l : list (list (list Q))) (el : nat) : res (list Q) :=
  match at_index l el KeyError with Ok cols => Ok (concat cols) | Raise e => Raise e end.

Section Results.
  Variables (points : nat -> list Q) (opts : al_options).
  Variable evaluated : traj Q -> arguments -> list (list Q) -> res (list (list (list Q))).
  (** The scheme and the solver of the relaxed problem, the names and [problem.x_cost]. *)
  Variables (sch : scheme) (k : method).
  Variables (names : list string * list string * list string * list string) (x_cost : option (list sym)).

  (** al:793-840 [create_optimization_result]: the result and the entry "violation_error" of
      its statistics. *)
  Definition al_result (s : aug_state) (raw : list Q) (x_0 : list Q) : cmd arguments (opt_result * option (list Q)) :=
    r <~ create_optimization_result points evaluated sch k names x_cost raw x_0 ;;
    nu <~ cres (by_point opts (k_degree k) (nu_of s)) ;;
    dt <~ cres (delta_t k) ;;
    bps <~ cres (breakpoints k) ;;
    times <~ cres (time_interpolation_nu points opts dt bps) ;;
    alg <~ cres (by_point opts (k_degree k) (violation_of (st_alg s))) ;;
    eq <~ cres (by_point opts (k_degree k) (violation_of (st_eq s))) ;;
    cret (with_other [("nu"%string, (nu, times)); ("alg_violation"%string, (alg, times));
                      ("eq_violation"%string, (eq, times))] r, st_last s).

  Section Solve.
    Variables (F : nat -> Q -> Q) (f : res update_function) (no_update : bool).
    Variable ocp_solve : list sub_call -> res (list Q).
    Variables (p : option (list Q)) (th : option (theta Q)).

    (** al:494-527 [solve].  Optimised parameters are written into the vectors returned by
        [call_solver]; that those can be the attributes themselves is not followed here. *)
    Definition al_solve (guess : option (list Q)) (x_0 : list Q)
      : cmd (aug_state * list sub_call) (opt_result * option (list Q)) :=
      v <~ call_solver F opts f (k_elements k) no_update ocp_solve p th guess ;;
      (fun st => (st, snd (al_result (fst st) (fst (fst v)) x_0 (snd (fst v), snd v)))).
  End Solve.
End Results.

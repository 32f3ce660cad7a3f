(** Specification vocabulary for optimal control problems: what each variable of a
    problem is bounded by, as tables. *)
From Coq Require Import String.
From Verif Require Import Base ExprModel NlpModel SysModel SysSpec SimModel OcpModel.
Local Open Scope list_scope.

(** One row per variable.  States: lower bound, upper bound, initial value.
    Algebraic variables: bounds.  Controls: bounds and rate bounds.  Optimised
    parameters: bounds.  Guesses, when there are any. *)
Record tables := mkTables
  { t_x : list (sym * (ext * ext * Q)); t_y : list (sym * (ext * ext));
    t_u : list (sym * (ext * ext * (ext * ext)));
    t_p : list (sym * (ext * ext)); t_th : list (sym * (ext * ext));
    t_yg : option (list (sym * Q)); t_ug : option (list (sym * Q)); t_pos : bool }.

(** Every vector has the length of the variables it belongs to. *)
Definition guess_fits (g : option (list Q)) (n : nat) : Prop :=
  match g with Some v => length v = n | None => True end.
Definition aligned (o : ocp) : Prop :=
  let m := o_model o in
  (length (o_x_min o) = length (m_x m) /\ length (o_x_max o) = length (m_x m) /\
   length (o_x_0 o) = length (m_x m)) /\
  (length (o_y_min o) = length (m_y m) /\ length (o_y_max o) = length (m_y m)) /\
  (length (o_u_min o) = length (m_u m) /\ length (o_u_max o) = length (m_u m) /\
   length (o_du_min o) = length (m_u m) /\ length (o_du_max o) = length (m_u m)) /\
  (length (o_p_min o) = length (o_p_opt o) /\ length (o_p_max o) = length (o_p_opt o)) /\
  (length (o_th_min o) = length (o_theta_opt o) /\ length (o_th_max o) = length (o_theta_opt o)) /\
  guess_fits (o_y_guess o) (length (m_y m)) /\ guess_fits (o_u_guess o) (length (m_u m)).

Definition tables_of (o : ocp) : tables :=
  let m := o_model o in
  mkTables (combine (m_x m) (combine (combine (o_x_min o) (o_x_max o)) (o_x_0 o)))
           (combine (m_y m) (combine (o_y_min o) (o_y_max o)))
           (combine (m_u m) (combine (combine (o_u_min o) (o_u_max o))
                                     (combine (o_du_min o) (o_du_max o))))
           (combine (o_p_opt o) (combine (o_p_min o) (o_p_max o)))
           (combine (o_theta_opt o) (combine (o_th_min o) (o_th_max o)))
           (option_map (combine (m_y m)) (o_y_guess o))
           (option_map (combine (m_u m)) (o_u_guess o))
           (o_positive o).

(** ** What each accepted call does to the tables *)

Definition lower (a : option (list ext)) (n : nat) : list ext :=
  match a with Some v => v | None => repeat NInf n end.
Definition upper (a : option (list ext)) (n : nat) : list ext :=
  match a with Some v => v | None => repeat PInf n end.
(** One number given for several controls counts for each of them. *)
Definition for_each (v : list ext) (n : nat) : list ext :=
  match v with [a] => repeat a n | _ => v end.
Definition bound_given (a : bound_arg) : option (list ext) :=
  match a with BNone => None | BVec v => Some v | BList v => Some v end.
Definition or_zeros (a : option (list Q)) (n : nat) : list Q :=
  match a with Some v => v | None => repeat 0%Q n end.

Definition rows_except {B : Type} (var : list sym) (t : list (sym * B)) : list (sym * B) :=
  filter (fun r => not_in var (fst r)) t.
Definition rows_of {B : Type} (var : list sym) (t : list (sym * B)) : list (sym * B) :=
  flat_map (fun c => filter (fun r => Nat.eqb (fst r) c) t) var.

Definition merge_guess_rows {B : Type} (vars : list B) (a b : option (list (sym * Q)))
  : option (list (sym * Q)) :=
  match a, b with
  | Some a, Some b => Some (a ++ b)
  | None, Some b => match vars with [] => Some b | _ => None end
  | _, None => None
  end.

Definition tables_append (a b : tables) : tables :=
  mkTables (t_x a ++ t_x b) (t_y a ++ t_y b) (t_u a ++ t_u b) (t_p a ++ t_p b) (t_th a ++ t_th b)
           (merge_guess_rows (t_y a) (t_yg a) (t_yg b)) (merge_guess_rows (t_u a) (t_ug a) (t_ug b))
           (t_pos a && t_pos b).

Definition add_x rows t := mkTables (t_x t ++ rows) (t_y t) (t_u t) (t_p t) (t_th t) (t_yg t) (t_ug t) (t_pos t).
Definition add_p rows t := mkTables (t_x t) (t_y t) (t_u t) (t_p t ++ rows) (t_th t) (t_yg t) (t_ug t) (t_pos t).
Definition add_th rows t := mkTables (t_x t) (t_y t) (t_u t) (t_p t) (t_th t ++ rows) (t_yg t) (t_ug t) (t_pos t).

Definition table_effect (op : ocp_op) (t : tables) : tables :=
  match op with
  | PIncludeState var _ x_0 lo hi _ _ _ =>
      let n := length var in
      add_x (combine var (combine (combine (lower (bound_given lo) n) (upper (bound_given hi) n))
                                  (or_zeros x_0 n))) t
  | PCreateCostState x_c _ => add_x [(x_c, (if t_pos t then Fin 0%Q else NInf, PInf, 0%Q))] t
  | PIncludeAlgebraic var _ lo hi g =>
      let n := length var in
      mkTables (t_x t) (t_y t ++ combine var (combine (lower lo n) (upper hi n))) (t_u t) (t_p t) (t_th t)
               (option_map (fun old => old ++ combine var (or_zeros g n)) (t_yg t)) (t_ug t) (t_pos t)
  | PIncludeControl var lo hi dlo dhi g =>
      let n := length var in
      mkTables (t_x t) (t_y t)
               (t_u t ++ combine var (combine (combine (for_each (lower lo n) n) (for_each (upper hi n) n))
                                              (combine (for_each (lower dlo n) n) (for_each (upper dhi n) n))))
               (t_p t) (t_th t) (t_yg t)
               (match g with
                | Some g => match t_u t with
                            | [] => Some (combine var g)
                            | _ => option_map (fun old => old ++ combine var g) (t_ug t)
                            end
                | None => t_ug t
                end) (t_pos t)
  | PRemoveAlgebraic var _ =>
      mkTables (t_x t) (rows_except var (t_y t)) (t_u t) (t_p t) (t_th t)
               (option_map (rows_except var) (t_yg t)) (t_ug t) (t_pos t)
  | PRemoveControl var =>
      mkTables (t_x t) (t_y t) (rows_except var (t_u t)) (t_p t) (t_th t)
               (t_yg t) (option_map (rows_except var) (t_ug t)) (t_pos t)
  | PConnect u _ true =>
      mkTables (t_x t) (t_y t) (rows_except u (t_u t)) (t_p t) (t_th t)
               (t_yg t) (option_map (rows_except u) (t_ug t)) (t_pos t)
  | PConnect u _ false =>
      mkTables (t_x t) (t_y t ++ map (fun r => (fst r, fst (snd r))) (rows_of u (t_u t)))
               (rows_except u (t_u t)) (t_p t) (t_th t)
               (match t_yg t, t_ug t with
                | Some gy, Some gu => Some (gy ++ rows_of u gu)
                | g, _ => g
                end)
               (option_map (rows_except u) (t_ug t)) (t_pos t)
  | PSetPOpt new lo hi | PIncludePOpt new lo hi =>
      add_p (combine new (combine (lower lo (length new)) (upper hi (length new)))) t
  | PSetThOpt new lo hi | PIncludeThOpt new lo hi =>
      add_th (combine new (combine (lower lo (length new)) (upper hi (length new)))) t
  | PMerge problems => fold_left (fun t q => tables_append t (tables_of q)) problems t
  | _ => t
  end.

(** Calls for which the tables tell the whole story. *)
Definition short_list (a : bound_arg) : Prop :=
  match a with BList l => (length l <= 1)%nat | _ => True end.
Definition admissible (t : tables) (op : ocp_op) : Prop :=
  match op with
  | PIncludeState _ _ _ lo hi _ _ _ => short_list lo /\ short_list hi
  | PIncludeAlgebraic var _ _ _ (Some g) => t_yg t <> None -> length g = length var
  | PConnect u _ false =>
      (forall c, In c u -> length (rows_of [c] (t_u t)) = 1%nat) /\ (t_yg t <> None -> t_ug t <> None)
  | PMerge problems => Forall aligned problems
  | _ => True
  end.
Fixpoint admissible_history (t : tables) (ops : list ocp_op) : Prop :=
  match ops with
  | [] => True
  | op :: ops' => admissible t op /\ admissible_history (table_effect op t) ops'
  end.

(** Calls that take a variable away. *)
Definition drops_control (c : sym) (op : ocp_op) : Prop :=
  match op with PRemoveControl var => In c var | PConnect u _ _ => In c u | _ => False end.
Definition drops_algebraic (c : sym) (op : ocp_op) : Prop :=
  match op with PRemoveAlgebraic var _ => In c var | _ => False end.

(** Sizes of arguments. *)
Definition has_size {A : Type} (n : nat) (v : list A) : Prop := length v = n.
Definition if_given {A : Type} (P : A -> Prop) (a : option A) : Prop :=
  match a with Some v => P v | None => True end.
(** A control bound: one entry per control, or a single one for all. *)
Definition control_size (n : nat) (v : list ext) : Prop := length v = n \/ (length v = 1%nat /\ (1 < n)%nat).

(** Every bound vector and the initial state have the size of their variables, and the
    costs are scalars. *)
Definition ready_to_solve (o : ocp) : Prop :=
  let m := o_model o in
  length (o_L o) = 1 /\ length (o_V o) = 1 /\
  (length (o_x_min o) = length (m_x m) /\ length (o_x_max o) = length (m_x m) /\
   length (o_x_0 o) = length (m_x m)) /\
  (length (o_y_min o) = length (m_y m) /\ length (o_y_max o) = length (m_y m)) /\
  (length (o_u_min o) = length (m_u m) /\ length (o_u_max o) = length (m_u m) /\
   length (o_du_min o) = length (m_u m) /\ length (o_du_max o) = length (m_u m)) /\
  (length (o_p_min o) = length (o_p_opt o) /\ length (o_p_max o) = length (o_p_opt o)) /\
  (length (o_th_min o) = length (o_theta_opt o) /\ length (o_th_max o) = length (o_theta_opt o)).

(** Everything in a problem that is an expression over the variables: costs, then
    constraints. *)
Definition problem_expressions (o : ocp) : list (list expr) :=
  [o_L o; o_V o; o_S o; o_h o; o_h_initial o; o_h_final o; o_g_eq o; o_g_ineq o].

(** All problems have the horizon of the first. *)
Definition same_horizon (o q : ocp) : Prop := (o_t_0 o == o_t_0 q)%Q /\ (o_t_f o == o_t_f q)%Q.

(** Problems built by successful calls from an empty model. *)
Definition reachable (o : ocp) : Prop :=
  exists same t tau t_0 t_f ops o0,
    new_ocp (new_model t tau) None t_0 t_f = Ok o0 /\
    run_all (ocp_step same) ops o0 = (o, Ok tt).

(** The value of a quadratic form: the double sum of w(i,j) v(i) v(j). *)
Definition qsum (l : list Q) : Q := fold_right Qplus 0%Q l.
Definition weight (W : weights) (i j : nat) : Q :=
  match W with
  | [[w]] => if (i =? j)%nat then w else 0%Q      (* a scalar weighs each square *)
  | _ => nth j (nth i W []) 0%Q
  end.
Definition quadratic_value (W : weights) (v : list Q) : Q :=
  let n := length v in
  qsum (map (fun j => qsum (map (fun i => weight W i j * nth i v 0 * nth j v 0)%Q (seq 0 n))) (seq 0 n)).
Definition weights_fit (W : weights) (n : nat) : Prop :=
  (exists w, W = [[w]]) \/ (length W = n /\ Forall (fun row => length row = n) W).
(** Deviation from a reference; an absent one is zero, one number counts for all. *)
Definition deviation (v : list Q) (ref : option (list Q)) : list Q :=
  match ref with
  | None => v
  | Some [r] => map (fun a => a - r)%Q v
  | Some r => map (fun ab => fst ab - snd ab)%Q (combine v r)
  end.
Definition optional_value (W : option weights) (v : list Q) : Q :=
  match W with Some W => quadratic_value W v | None => 0%Q end.

(** A problem before and after a rewriting of its expressions: all of them, read at
    [env], are the old ones read at [env']. *)
Definition problem_evaluates_as (F : nat -> Q -> Q) (env env' : sym -> Q) (o o' : ocp) : Prop :=
  Forall2 (Forall2 (evaluates_as F env env')) (problem_expressions o) (problem_expressions o') /\
  model_evaluates_as F env env' (o_model o) (o_model o').

(** What is optimised besides the controls are parameters of the model. *)
Definition optimises_own (o : ocp) : Prop :=
  incl (o_p_opt o) (m_p (o_model o)) /\ incl (o_theta_opt o) (m_theta (o_model o)).
(** The calls choose parameters of the model, and problems that do so. *)
Definition own_choice (op : ocp_op) (o : ocp) : Prop :=
  match op with
  | PSetPOpt new _ _ => incl new (m_p (o_model o))
  | PSetThOpt new _ _ => incl new (m_theta (o_model o))
  | PMerge ps => Forall optimises_own ps
  | _ => True
  end.
Fixpoint own_choices (same : expr -> expr -> bool) (ops : list ocp_op) (o : ocp) : Prop :=
  match ops with
  | [] => True
  | op :: ops' => own_choice op o /\ own_choices same ops' (fst (ocp_step same op o))
  end.

(** Some control has a bound on its rate of change. *)
Definition rate_bounded (o : ocp) : Prop :=
  exists i c lo hi, nth_error (m_u (o_model o)) i = Some c /\ nth_error (o_du_min o) i = Some lo /\
    nth_error (o_du_max o) i = Some hi /\ (lo <> NInf \/ hi <> PInf).

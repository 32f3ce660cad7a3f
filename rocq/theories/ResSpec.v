(** Vocabulary for the properties of optimisation results. *)
From Coq Require Import String.
From Verif Require Import Base ExprModel SysModel OcpModel OcpSpec DataModel DataSpec DiscModel DiscSpec ResModel.
Local Open Scope list_scope.

(** The values of the first [n] elements beside their times. *)
Definition samples (n : nat) (times : list (list Q)) (values : list (list (list Q))) : list (Q * list Q) :=
  concat (map (fun el => combine (nth el times []) (nth el values [])) (seq 0 n)).

(** One time for every vector, vectors of one size, at least one of them. *)
Definition block (size : nat) (times : list Q) (values : list (list Q)) : Prop :=
  values <> [] /\ length times = length values /\ Forall (fun v => length v = size) values.
Definition series (n size : nat) (times : list (list Q)) (values : list (list (list Q))) : Prop :=
  (n <= length times)%nat /\ (n <= length values)%nat /\
  forall el, (el < n)%nat -> block size (nth el times []) (nth el values []).

Definition reserved : list string := ["x"; "y"; "u"; "theta_opt"]%string.

(** A result with values and times for every element. *)
Record complete (r : opt_result) : Prop := mkComplete
  { cp_x : w_x_names r <> [] -> series (w_elements r + 1) (length (w_x_names r)) (w_x_time r ++ [[w_t_f r]]) (w_x r);
    cp_y : w_y_names r <> [] -> series (w_elements r) (length (w_y_names r)) (w_y_time r) (w_y r);
    cp_u : w_u_names r <> [] -> series (w_elements r) (length (w_u_names r)) (w_u_time r) (w_u r);
    cp_theta : w_theta_names r <> [] ->
      block (length (w_theta_names r)) (removelast (w_breakpoints r)) (w_theta_opt r);
    cp_other : forall k v t, In (k, (v, t)) (w_other r) ->
      (0 < w_elements r)%nat /\ exists size, series (w_elements r) size t v;
    cp_keys : NoDup (reserved ++ map fst (w_other r)) }.

(** What the data set must contain for a name of an entry. *)
Definition expected (r : opt_result) (k : string) (l : list (Q * list Q)) : Prop :=
  (k = "x"%string /\ l = (match w_x_names r with [] => [] | _ => samples (w_elements r + 1) (w_x_time r ++ [[w_t_f r]]) (w_x r) end)) \/
  (k = "y"%string /\ l = (match w_y_names r with [] => [] | _ => samples (w_elements r) (w_y_time r) (w_y r) end)) \/
  (k = "u"%string /\ l = (match w_u_names r with [] => [] | _ => samples (w_elements r) (w_u_time r) (w_u r) end)) \/
  (k = "theta_opt"%string /\ l = (match w_theta_names r with [] => [] | _ => combine (removelast (w_breakpoints r)) (w_theta_opt r) end)) \/
  (exists v t, In (k, (v, t)) (w_other r) /\ l = samples (w_elements r) t v).

(** The rows [idx] of a vector. *)
Definition rows_of (idx : list nat) (v w : list Q) : Prop :=
  map Some w = map (nth_error v) idx.

(** The data of a type of variables and their number. *)
Definition of_type (r : opt_result) (type : string) (data : list (list (list Q))) (n : nat) : Prop :=
  (type = "x"%string /\ data = w_x r /\ n = length (w_x_names r)) \/
  (type = "y"%string /\ data = w_y r /\ n = length (w_y_names r)) \/
  (type = "u"%string /\ data = w_u r /\ n = length (w_u_names r)).

(** [i] is the first position of a name. *)
Definition first_at (name : string) (names : list string) (i : nat) : Prop :=
  nth_error names i = Some name /\ forall j, (j < i)%nat -> nth_error names j <> Some name.
(** The variable meant by a name: a control, or an algebraic variable if no control has
    the name, or a state if neither has. *)
Definition meant (r : opt_result) (name : string) (data : list (list (list Q))) (i : nat) : Prop :=
  (first_at name (w_u_names r) i /\ data = w_u r) \/
  (~ In name (w_u_names r) /\ first_at name (w_y_names r) i /\ data = w_y r) \/
  (~ In name (w_u_names r) /\ ~ In name (w_y_names r) /\ first_at name (w_x_names r) i /\ data = w_x r).

(** All vectors have as many components as names. *)
Definition wide (n : nat) (data : list (list (list Q))) : Prop :=
  Forall (Forall (fun v => length v = n)) data.
Definition all_wide (r : opt_result) : Prop :=
  wide (length (w_x_names r)) (w_x r) /\ wide (length (w_y_names r)) (w_y r) /\ wide (length (w_u_names r)) (w_u r).

(** [v'] is [v] with [values] at the positions of [chosen] in [names]. *)
Definition overwritten (names chosen : list sym) (v values v' : list Q) : Prop :=
  length v' = length v /\
  forall i n, nth_error names i = Some n ->
    (~ In n chosen -> nth_error v' i = nth_error v i) /\
    forall j, nth_error chosen j = Some n -> nth_error v' i = nth_error values j.

(** ** Results from the values of the decision variables *)

Definition decided (s : scheme) (k : method) (z : traj Q) : Prop :=
  match s with Collocation => collocation_shape k z | Shooting => shooting_shape k z end.
(** The states reported: collocation repeats the last one as an element of its own. *)
Definition states_of (s : scheme) (z : traj Q) : list (list (list Q)) :=
  match s with
  | Collocation => r_x z ++ [[last (last (r_x z) []) []]]
  | Shooting => r_x z
  end.
(** The trajectories the controls of an indirect method are evaluated from. *)
Definition reported (s : scheme) (z : traj Q) : traj Q :=
  mkTraj (states_of s z) (r_y z) (r_u z) (r_eta z) (r_p z) (r_theta z).

(** The time at the fraction [tau] of an element. *)
Definition time_in (k : method) (el : nat) (tau : Q) : Q :=
  (o_t_f (k_problem k) - o_t_0 (k_problem k)) / q_of_nat (k_elements k) * (q_of_nat el + tau).
Section Instants.
  Variable points : nat -> list Q.
  Definition x_instants (s : scheme) (k : method) (el : nat) : list Q :=
    match s with
    | Collocation => map (time_in k el) (0%Q :: points (k_degree k))
    | Shooting => [time_in k el 0]
    end.
  Definition y_instants (s : scheme) (k : method) (el : nat) : list Q :=
    match s with
    | Collocation => map (time_in k el) (points (k_degree k))
    | Shooting => [time_in k el 1]
    end.
  Definition u_instants (k : method) (el : nat) : list Q :=
    if (k_degree_control k =? 1)%nat then [time_in k el 0] else map (time_in k el) (points (k_degree_control k)).
End Instants.
(** Times of the elements, up to equality of rationals. *)
Definition timed (k : method) (times : list (list Q)) (instants : nat -> list Q) : Prop :=
  forall el, (el < k_elements k)%nat -> Forall2 Qeq (nth el times []) (instants el).

(** Optimised parameters among those of the model; values for all parameters, and for
    all element-wise parameters of some elements. *)
Record arguable (k : method) (p : list Q) (theta : dict nat (list Q)) : Prop := mkArguable
  { ar_p_in : incl (o_p_opt (k_problem k)) (m_p (k_model k));
    ar_theta_in : incl (o_theta_opt (k_problem k)) (m_theta (k_model k));
    ar_p_nodup : NoDup (m_p (k_model k)) /\ NoDup (o_p_opt (k_problem k));
    ar_theta_nodup : NoDup (m_theta (k_model k)) /\ NoDup (o_theta_opt (k_problem k));
    ar_p : length p = length (m_p (k_model k));
    ar_theta_keys : NoDup (map fst theta);
    ar_theta : forall el v, In (el, v) theta -> (el < k_elements k)%nat /\ length v = length (m_theta (k_model k)) }.

(** A name for every variable. *)
Definition names_fit (k : method) (names : list string * list string * list string * list string) : Prop :=
  length (fst (fst (fst names))) = n_x k /\ length (snd (fst (fst names))) = n_y k /\
  length (snd (fst names)) = n_u k /\ length (snd names) = n_theta_opt k.

(** Specification vocabulary for the discretisation: sizes, shapes and places of the
    decision variables and of the parameters. *)
From Coq Require Import String.
From Verif Require Import Base ExprModel NlpModel NlpSpec SysModel SysSpec OcpModel OcpSpec DiscModel.
Local Open Scope list_scope.

(** ** Shapes *)

(** [n] vectors of [d] entries. *)
Definition rows {A : Type} (n d : nat) (l : list (list A)) : Prop :=
  length l = n /\ Forall (fun v => length v = d) l.
(** [n] elements of [m] vectors of [d] entries. *)
Definition grid {A : Type} (n m d : nat) (l : list (list (list A))) : Prop :=
  length l = n /\ Forall (rows m d) l.

(** Control vectors per element: none when the controls are not decision variables. *)
Definition control_count (k : method) : nat :=
  match m_u_par (k_model k) with [] => 0 | _ => k_degree_control k end.

(** Trajectories with [ne] elements of [nx] states and [ny] algebraic vectors. *)
Definition shaped {A : Type} (k : method) (ne nx ny : nat) (r : traj A) : Prop :=
  grid ne nx (n_x k) (r_x r) /\ grid (k_elements k) ny (n_y k) (r_y r) /\
  grid (k_elements k) (control_count k) (n_u k) (r_u r) /\
  length (r_eta r) = n_eta k /\ length (r_p r) = n_p_opt k /\
  rows (k_elements k) (n_theta_opt k) (r_theta r).
Definition collocation_shape {A : Type} (k : method) (r : traj A) : Prop :=
  shaped k (k_elements k) (k_degree k + 1) (k_degree k) r.
Definition shooting_shape {A : Type} (k : method) (r : traj A) : Prop :=
  shaped k (k_elements k + 1) 1 1 r.

(** What unpacking a collocation vector returns: the last state is given once more, as
    an element of its own. *)
Definition with_last_state {A : Type} (r : traj A) : traj A :=
  mkTraj (r_x r ++ [[last (last (r_x r) []) []]]) (r_y r) (r_u r) (r_eta r) (r_p r) (r_theta r).

(** The number of decision variables. *)
Definition collocation_size (k : method) : nat :=
  k_elements k * ((k_degree k + 1) * n_x k) + k_elements k * (k_degree k * n_y k) +
  k_elements k * (control_count k * n_u k) + n_eta k + n_p_opt k + k_elements k * n_theta_opt k.
Definition shooting_size (k : method) : nat :=
  (k_elements k + 1) * n_x k + k_elements k * n_y k + k_elements k * (control_count k * n_u k) +
  n_eta k + n_p_opt k + k_elements k * n_theta_opt k.

(** The entry [i] of vector [j] of element [e]. *)
Definition entry {A : Type} (l : list (list (list A))) (e j i : nat) : option A :=
  match nth_error l e with
  | Some r => match nth_error r j with Some v => nth_error v i | None => None end
  | None => None
  end.
Definition entry2 {A : Type} (l : list (list A)) (e i : nat) : option A :=
  match nth_error l e with Some v => nth_error v i | None => None end.

(** Where the entries stand in a vector whose states come in [ne] elements of [nx]
    vectors, followed by algebraic variables ([ny] per element), controls, free
    final variables, parameters and element-wise parameters. *)
Section Places.
  Variables (k : method) (ne nx ny : nat).
  Definition y_offset : nat := ne * (nx * n_x k).
  Definition u_offset : nat := y_offset + k_elements k * (ny * n_y k).
  Definition eta_offset : nat := u_offset + k_elements k * (control_count k * n_u k).
  Definition p_offset : nat := eta_offset + n_eta k.
  Definition theta_offset : nat := p_offset + n_p_opt k.
  Definition stands_at {A : Type} (v : list A) (r : traj A) : Prop :=
    (forall e j i a, entry (r_x r) e j i = Some a -> nth_error v ((e * nx + j) * n_x k + i) = Some a) /\
    (forall e j i a, entry (r_y r) e j i = Some a ->
       nth_error v (y_offset + (e * ny + j) * n_y k + i) = Some a) /\
    (forall e j i a, entry (r_u r) e j i = Some a ->
       nth_error v (u_offset + (e * control_count k + j) * n_u k + i) = Some a) /\
    (forall i a, nth_error (r_eta r) i = Some a -> nth_error v (eta_offset + i) = Some a) /\
    (forall i a, nth_error (r_p r) i = Some a -> nth_error v (p_offset + i) = Some a) /\
    (forall e i a, entry2 (r_theta r) e i = Some a ->
       nth_error v (theta_offset + e * n_theta_opt k + i) = Some a).
End Places.
Definition collocation_places {A : Type} (k : method) (v : list A) (r : traj A) : Prop :=
  stands_at k (k_elements k) (k_degree k + 1) (k_degree k) v r.
Definition shooting_places {A : Type} (k : method) (v : list A) (r : traj A) : Prop :=
  stands_at k (k_elements k + 1) 1 1 v r.

(** ** Bounds *)

Definition in_order (lo hi : list ext) : Prop :=
  forall i a b, nth_error lo i = Some a -> nth_error hi i = Some b -> ext_le a b.
(** A problem whose bounds have the right sizes and do not cross. *)
Definition well_bounded (o : ocp) : Prop :=
  aligned o /\ in_order (o_x_min o) (o_x_max o) /\ in_order (o_y_min o) (o_y_max o) /\
  in_order (o_u_min o) (o_u_max o) /\ in_order (o_p_min o) (o_p_max o) /\
  in_order (o_th_min o) (o_th_max o).

(** The trajectory that has the given vectors at every point. *)
Definition repeated {A : Type} (k : method) (ne nx ny : nat) (x y u eta p th : list A) : traj A :=
  mkTraj (repeat (repeat x nx) ne) (repeat (repeat y ny) (k_elements k))
         (repeat (repeat u (control_count k)) (k_elements k)) eta p (repeat th (k_elements k)).
Definition lower_bounds (k : method) (ne nx ny : nat) : traj ext :=
  let o := k_problem k in
  repeated k ne nx ny (o_x_min o) (o_y_min o) (o_u_min o) (repeat NInf (n_eta k)) (o_p_min o) (o_th_min o).
Definition upper_bounds (k : method) (ne nx ny : nat) : traj ext :=
  let o := k_problem k in
  repeated k ne nx ny (o_x_max o) (o_y_max o) (o_u_max o) (repeat PInf (n_eta k)) (o_p_max o) (o_th_max o).

(** The guess for the states is the initial condition, the other guesses are those of
    the problem, or zero. *)
Definition or_zero (g : option (list Q)) (n : nat) : list Q :=
  match g with Some v => v | None => repeat 0%Q n end.
Definition default_guess (k : method) (ne nx ny : nat) : traj Q :=
  let o := k_problem k in
  repeated k ne nx ny (o_x_0 o) (or_zero (o_y_guess o) (n_y k)) (or_zero (o_u_guess o) (n_u k))
    (repeat 0%Q (n_eta k)) (repeat 0%Q (n_p_opt k)) (repeat 0%Q (n_theta_opt k)).

(** ** Parameters *)

(** The values given to the NLP parameters, block by block. *)
Record par_values := mkParValues
  { pv_p : list Q; pv_theta : list (list Q); pv_x0 : list Q; pv_last_u : list Q }.
(** Every parameter symbol has its value. *)
Definition reads (env : sym -> Q) (s : par_syms) (v : par_values) : Prop :=
  map env (ps_p s) = pv_p v /\ map (map env) (ps_theta s) = pv_theta v /\
  map env (ps_x0 s) = pv_x0 v /\ map env (ps_last_u s) = pv_last_u v.

(** The value that the vector [q] of values gives to a parameter of the list [v]. *)
Definition value_in (v : list sym) (q : list Q) (s : sym) : Q := assign (fun _ => 0%Q) v q s.
(** The default guess with values for the optimised parameters. *)
Definition guess_with (k : method) (ne nx ny : nat) (p : list Q) (theta : list (list Q)) : traj Q :=
  let g := default_guess k ne nx ny in
  mkTraj (r_x g) (r_y g) (r_u g) (r_eta g)
    (map (value_in (m_p (k_model k)) p) (o_p_opt (k_problem k)))
    (map (fun th => map (value_in (m_theta (k_model k)) th) (o_theta_opt (k_problem k))) theta).
(** One vector of values per element. *)
Definition theta_table (k : method) (d : dict nat (list Q)) (theta : list (list Q)) : Prop :=
  length theta = k_elements k /\
  forall el v, nth_error theta el = Some v -> dget Nat.eqb el d = Some v.

(** ** An example *)

(** A cart with position 10, velocity 11, power 20, force 30 between -1 and 1, mass 40,
    friction 41 (to be optimised), and two element-wise parameters 50 and 51 (to be
    optimised). *)
Definition cart_history : list ocp_op :=
  [ PIncludeParameter [40; 41]; PIncludeTheta [50; 51];
    PIncludeState [10; 11] None (Some [1%Q; 0%Q]) BNone (BVec [PInf; Fin 5%Q]) None [12; 13] false;
    PIncludeAlgebraic [20] None (Some [Fin 0%Q]) None None;
    PIncludeControl [30] (Some [Fin (-1)%Q]) (Some [Fin 1%Q]) None None None;
    PIncludeEquations [] (Some [EVar 11; EBin OSub (EBin ODiv (EVar 30) (EVar 40)) (EBin OMul (EVar 41) (EVar 11))])
      (Some [10; 11]) (Some [EBin OSub (EVar 20) (EBin OAdd (EVar 50) (EVar 51))]);
    PSetPOpt [41] (Some [Fin 0%Q]) None; PSetThOpt [51] None None ].
Definition cart : res ocp :=
  match new_ocp (new_model 1 2) None 0%Q 10%Q with
  | Raise e => Raise e
  | Ok o => match run_all (ocp_step (fun _ _ => false)) cart_history o with
            | (o', Ok _) => Ok o'
            | (_, Raise e) => Raise e
            end
  end.
Definition cart_method (degree elements : nat) : res method :=
  match cart with
  | Raise e => Raise e
  | Ok o => new_method o degree 1 elements true false true false
  end.

(** Vocabulary for the properties of simulated plants. *)
From Coq Require Import String Sorted.
From Verif Require Import Base ExprModel SysModel SimModel DataModel DataSpec PlantModel.
Local Open Scope list_scope.
Local Open Scope Q_scope.

(** The values of the theta parameters: those of element 0, if any are given. *)
Definition theta_values (c : plant_config) (v : list Q) : Prop :=
  match f_theta c with None => v = [] | Some d => dget Nat.eqb 0%nat d = Some v end.
(** The function of the controls mentions known symbols only. *)
Definition closed_control (m : model) : Prop :=
  forall e s, In e (m_u_expr m) -> In s (symbols e) ->
    s = m_t m \/ In s (m_x m ++ m_y m ++ m_p m ++ m_theta m ++ m_u_par m).

(** The model carried from state [x] at [t] to [x'], [y'] at [t'] with the control
    parameters [u]: one call of the integrator.  [v] are the values of the controls at [t']. *)
Definition flow (integrate : icall -> res (list Q * list Q)) (defaults : options) (F : nat -> Q -> Q)
    (c : plant_config) (x : list Q) (t t' : Q) (u x' y' v : list Q) : Prop :=
  exists theta, theta_values c theta /\
    dae_simulate integrate defaults (get_dae_system (f_model c)) x t' t (f_p c ++ theta ++ u)
      (Some (f_y_guess c)) "implicit" (f_options c) = Ok (x', y') /\
    v = f_u F (f_model c) t' x' y' (f_p c) theta u.

(** The control held from time [t] on: the function's value at [t], if there is a function. *)
Definition held (f : option (Q -> res (list Q))) (t : Q) (u u' : list Q) : Prop :=
  match f with None => u' = u | Some g => g t = Ok u' end.

Definition plus (a b : list Q) : list Q := map (fun ab => fst ab + snd ab) (combine a b).
(** The noise number [n], if there is noise. *)
Definition disturbed (noise : bool) (w : nat -> list Q) (n : nat) (v v' : list Q) (n' : nat) : Prop :=
  if noise then v' = plus v (w n) /\ n' = S n else v' = v /\ n' = n.

(** One row of the records. *)
Record row := mkRow { row_t : Q; row_x : list Q; row_y : list Q; row_u : list Q }.

(** What the plant is at: time, state, control, noise drawn so far. *)
Definition at_point : Type := Q * list Q * list Q * nat.
Definition point_of (s : plant) : at_point := (a_t s, a_x s, a_u s, a_draws s).

(** The samples of one control interval starting at [start]: each begins where the last
    one ended, and produces one row. *)
Inductive sampled (integrate : icall -> res (list Q * list Q)) (defaults : options) (F : nat -> Q -> Q)
    (w : nat -> list Q) (c : plant_config) (f : option (Q -> res (list Q))) (start : Q)
  : list Q -> at_point -> list row -> at_point -> Prop :=
| sampled_none : forall p, sampled integrate defaults F w c f start [] p [] p
| sampled_next : forall d l t x u n u' x' y' v x'' n' rows p,
    held f t u u' ->
    flow integrate defaults F c x t (start + d * f_t_s c) u' x' y' v ->
    disturbed (f_noise c) w n x' x'' n' ->
    sampled integrate defaults F w c f start l (start + d * f_t_s c, x'', u', n') rows p ->
    sampled integrate defaults F w c f start (d :: l) (t, x, u, n)
      (mkRow (start + d * f_t_s c) x'' y' v :: rows) p.

(** Matrix times vector. *)
Fixpoint dot (a b : list Q) : Q :=
  match a, b with x :: a', y :: b' => x * y + dot a' b' | _, _ => 0 end.
Definition is_product (m : list (list Q)) (v r : list Q) : Prop :=
  Forall2 (fun row q => q == dot row v) m r.

(** The stored rows of one variable. *)
Definition stored (k : string) (s : plant) : list (Q * list Q) :=
  match contents k (a_data s) with Some l => l | None => [] end.

(** Sizes: of the configuration, and of the answers of the integrator and the noise. *)
Definition fitting (c : plant_config) : Prop :=
  length (f_y_guess c) = length (m_y (f_model c)) /\
  Forall (fun r => length r = (length (m_x (f_model c)) + length (m_y (f_model c)))%nat) (f_c c) /\
  length (m_u_expr (f_model c)) = length (m_u (f_model c)) /\
  closed_control (f_model c).
Definition sized_integrator (integrate : icall -> res (list Q * list Q)) (n_y : nat) : Prop :=
  forall k x z, integrate k = Ok (x, z) -> length x = length (ic_x0 k) /\ length z = n_y.
Definition sized_noise (w_x w_m : nat -> list Q) (c : plant_config) : Prop :=
  forall n, length (w_x n) = length (m_x (f_model c)) /\ length (w_m n) = length (f_c c).

(** The entries of the data set and the height of each. *)
Definition entries : list string := ["x"; "y"; "u"; "meas_wo_noise"; "meas"]%string.
Definition height (c : plant_config) (k : string) : nat :=
  if String.eqb k "x" then length (m_x (f_model c))
  else if String.eqb k "y" then length (m_y (f_model c))
  else if String.eqb k "u" then length (m_u_expr (f_model c))
  else length (f_c c).
Definition recording (c : plant_config) (s : plant) : Prop :=
  dkeys (a_data s) = entries /\ consistent (a_data s) /\ sized (a_data s) /\
  length (a_x s) = length (m_x (f_model c)) /\
  forall k e, look k (a_data s) = Some e -> e_values e = null \/ mrows (e_values e) = height c k.

(** The sampling points: positive and increasing. *)
Definition proper_points (l : list Q) : Prop :=
  l <> [] /\ StronglySorted Qlt l /\ Forall (fun d => 0 < d) l.

(** Every entry's times increase strictly and do not exceed the time of the plant. *)
Definition in_order (s : plant) : Prop :=
  forall k l, contents k (a_data s) = Some l ->
    StronglySorted (fun a b => fst a < fst b) l /\ Forall (fun p => fst p <= a_t s) l.

(** The rows of one control interval, for each entry. *)
Definition rows_x (l : list row) := map (fun r => (row_t r, row_x r)) l.
Definition rows_y (l : list row) := map (fun r => (row_t r, row_y r)) l.
Definition rows_u (l : list row) := map (fun r => (row_t r, row_u r)) l.

(** What one control interval does: the samples, one row each, then one measurement of
    the last state.  Everything recorded before stays. *)
Definition advanced (integrate : icall -> res (list Q * list Q)) (defaults : options) (F : nat -> Q -> Q)
    (w_x w_m : nat -> list Q) (c : plant_config) (s s' : plant) : Prop :=
  exists before t x u n y v clean m n',
    sampled integrate defaults F w_x c (a_function s) (a_t s) (f_points c) (point_of s)
      (before ++ [mkRow t x y v]) (t, x, u, n) /\
    point_of s' = (t, x, u, n') /\ a_function s' = a_function s /\
    is_product (f_c c) (x ++ y) clean /\ disturbed (f_noise c) w_m n clean m n' /\
    a_measurement s' = m /\
    stored "x" s' = stored "x" s ++ rows_x (before ++ [mkRow t x y v]) /\
    stored "y" s' = stored "y" s ++ rows_y (before ++ [mkRow t x y v]) /\
    stored "u" s' = stored "u" s ++ rows_u (before ++ [mkRow t x y v]) /\
    stored "meas" s' = stored "meas" s ++ [(t, m)] /\
    stored "meas_wo_noise" s' = stored "meas_wo_noise" s ++ [(t, clean)].

(** The plant with the control of a call in place of the one it had. *)
Definition given (op : plant_op) (s : plant) : plant :=
  match op with SetControl u => set_a_u u s | SetFunction f => set_a_function (Some f) s end.
Definition right_size (c : plant_config) (op : plant_op) : Prop :=
  match op with SetControl u => length u = length (m_u_par (f_model c)) | SetFunction _ => True end.

(** A plant after construction and any calls, accepted or not. *)
Definition reached (default : string -> nat -> string) (integrate : icall -> res (list Q * list Q))
    (defaults : options) (F : nat -> Q -> Q) (w_x w_m : nat -> list Q) (c : plant_config) (s : plant) : Prop :=
  exists x_0 u_0 f s_0 ops,
    new_plant default c x_0 u_0 f = Ok s_0 /\ length x_0 = length (m_x (f_model c)) /\
    (forall u, u_0 = Some u -> length u = length (m_u_expr (f_model c))) /\
    s = run_caught (plant_step default integrate defaults F w_x w_m c) ops s_0.

(** A tank for the examples: level x, outflow y = 2 x, inflow u; the integrator is one
    Euler step.  One sample of length 2 has two sampling points. *)
Definition tank_model : model :=
  set_u [30%nat] (set_u_par [30%nat] (set_u_expr [EVar 30%nat]
    (set_alg [EBin OSub (EVar 20%nat) (EBin OMul (EConst 2) (EVar 10%nat))] (set_y [20%nat]
      (set_ode [(10%nat, Some (EVar 30%nat))] (set_x [10%nat] (new_model 1%nat 2%nat))))))).
Definition tank_config (t_s : Q) (points : list Q) (noise : bool) : plant_config :=
  mkConfig tank_model 0 t_s [2] [[1; 0]; [1; 1]] points noise [] None [] ["level"]%string ["flow"]%string ["in"]%string.
Definition euler (k : icall) : res (list Q * list Q) :=
  match dget String.eqb "tf"%string (ic_opts k), dget String.eqb "t0"%string (ic_opts k), ic_x0 k, ic_p k with
  | Some (OptNum tf), Some (OptNum t0), [x], [u] =>
      let x' := Qred (x + (tf - t0) * u) in
      if Qle_bool x' 10 then Ok ([x'], [Qred (2 * x')]) else Raise CasadiError
  | _, _, _, _ => Raise CasadiError
  end.

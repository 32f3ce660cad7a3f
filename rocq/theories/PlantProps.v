(** Properties of simulated plants. *)
From Coq Require Import String.
From Verif Require Import Base ExprModel SysModel SimModel DataModel DataSpec OcpModel DiscModel PlantModel PlantSpec PlantProofs PlantTimeProofs.
Local Open Scope list_scope.
Local Open Scope Q_scope.

(** ** C43 *)

(** A new plant is at [t_0] with one row in every entry.  Its first measurement record is
    the output C [x_0; y_guess]. *)
Theorem C43_constructed :
  forall default c, fitting c -> forall x_0 u_0 f, length x_0 = length (m_x (f_model c)) ->
    (forall u, u_0 = Some u -> length u = length (m_u_expr (f_model c))) ->
    exists s m u, new_plant default c x_0 u_0 f = Ok s /\ recording c s /\
      u = match u_0 with Some u => u | None => repeat 0 (length (m_u (f_model c))) end /\
      point_of s = (f_t_0 c, x_0, u, O) /\ a_function s = f /\ a_measurement s = x_0 /\
      is_product (f_c c) (x_0 ++ f_y_guess c) m /\
      stored "x" s = [(f_t_0 c, x_0)] /\ stored "y" s = [(f_t_0 c, f_y_guess c)] /\ stored "u" s = [(f_t_0 c, u)] /\
      stored "meas" s = [(f_t_0 c, m)] /\ stored "meas_wo_noise" s = [(f_t_0 c, m)].
Proof. exact constructed. Qed.
Print Assumptions C43_constructed.

(** Whatever was called before, an accepted control advances the plant as described: the
    samples are chained through the integrator from the current state with the control
    held in each sample, every sample adds one row to x, y and u, and the last state is
    measured once. *)
Theorem C43_accepted :
  forall default integrate defaults F w_x w_m c,
    sized_integrator integrate (length (m_y (f_model c))) -> fitting c ->
    (f_noise c = true -> sized_noise w_x w_m c) ->
    forall s op s', reached default integrate defaults F w_x w_m c s ->
      plant_step default integrate defaults F w_x w_m c op s = (s', Ok tt) ->
      right_size c op /\ f_points c <> [] /\ recording c s' /\
      advanced integrate defaults F w_x w_m c (given op s) s'.
Proof.
  exact (fun d i df F wx wm c Si Fit Sn s op s' R => step_sound d i df F wx wm c Si Fit Sn op s s' (reached_recording d i df F wx wm c Si Fit Sn s R)).
Qed.
Print Assumptions C43_accepted.

(** A control of the right size is accepted if the integrator can run all samples. *)
Theorem C43_accepts :
  forall default integrate defaults F w_x w_m c,
    sized_integrator integrate (length (m_y (f_model c))) -> fitting c ->
    (f_noise c = true -> sized_noise w_x w_m c) ->
    forall s op rows p', reached default integrate defaults F w_x w_m c s -> f_points c <> [] ->
      right_size c op ->
      sampled integrate defaults F w_x c (a_function (given op s)) (a_t s) (f_points c) (point_of (given op s)) rows p' ->
      exists s', plant_step default integrate defaults F w_x w_m c op s = (s', Ok tt).
Proof.
  exact (fun d i df F wx wm c Si Fit Sn s op rows p' R => step_complete d i df F wx wm c Si Fit Sn op s rows p' (reached_recording d i df F wx wm c Si Fit Sn s R)).
Qed.
Print Assumptions C43_accepts.

(** N accepted controls take N times the last sampling point times [t_s]; with a number
    of equidistant points the last one is 1. *)
Theorem C43_time :
  forall default integrate defaults F w_x w_m c ops s s',
    run_all (plant_step default integrate defaults F w_x w_m c) ops s = (s', Ok tt) ->
    a_t s' == a_t s + q_of_nat (length ops) * (last (f_points c) 0 * f_t_s c).
Proof. exact history_time. Qed.
Print Assumptions C43_time.

Theorem C43_equidistant :
  forall n, (0 < n)%nat -> last (sampling_points (Count n)) 0 == 1 /\ proper_points (sampling_points (Count n)).
Proof. exact (fun n H => conj (count_last n H) (count_proper n H)). Qed.
Print Assumptions C43_equidistant.

(** After any history, including failures in the middle of a sample, the times of every
    entry increase strictly and none is later than the time of the plant. *)
Theorem C43_in_order :
  forall default integrate defaults F w_x w_m c s,
    proper_points (f_points c) -> 0 < f_t_s c ->
    reached default integrate defaults F w_x w_m c s -> in_order s /\ f_t_0 c <= a_t s.
Proof. exact reached_in_order. Qed.
Print Assumptions C43_in_order.

(** A control of the wrong size is refused and nothing changes. *)
Theorem C43_wrong_size :
  forall default integrate defaults F w_x w_m c u s, length u <> length (m_u_par (f_model c)) ->
    plant_step default integrate defaults F w_x w_m c (SetControl u) s = (s, Raise ValueError).
Proof. exact wrong_size. Qed.
Print Assumptions C43_wrong_size.

(** With the default sampling time 0 no control is ever accepted. *)
Theorem C43_default_step_refuted :
  forall default integrate defaults F w_x w_m c, f_t_s c == 0 ->
    forall op s, exists e, snd (plant_step default integrate defaults F w_x w_m c op s) = Raise e.
Proof. exact zero_step. Qed.
Print Assumptions C43_default_step_refuted.

(** Nor with super sampling 0. *)
Theorem C43_no_points_refuted :
  forall default integrate defaults F w_x w_m c, f_points c = [] ->
    forall op s, snd (plant_step default integrate defaults F w_x w_m c op s) = Raise UnboundLocalError \/
                 snd (plant_step default integrate defaults F w_x w_m c op s) = Raise ValueError.
Proof. exact no_points. Qed.
Print Assumptions C43_no_points_refuted.

(** Once a control function is set, controls given to [set_control] have no effect. *)
Theorem C43_set_control_refuted :
  forall default integrate defaults F w_x w_m c f u v s,
    a_function s = Some f -> (forall t, exists w, f t = Ok w) ->
    f_points c <> [] -> length u = length (m_u_par (f_model c)) -> length v = length (m_u_par (f_model c)) ->
    plant_step default integrate defaults F w_x w_m c (SetControl u) s =
    plant_step default integrate defaults F w_x w_m c (SetControl v) s.
Proof. exact function_wins. Qed.
Print Assumptions C43_set_control_refuted.

(** A simulation that fails leaves the plant in the middle of the sample, with rows of
    the first part. *)
Theorem C43_failure_changes_refuted :
  exists c s s' e, reached (fun _ _ => ""%string) euler [] (fun _ q => q) (fun _ => []) (fun _ => []) c s /\
    plant_step (fun _ _ => ""%string) euler [] (fun _ q => q) (fun _ => []) (fun _ => []) c (SetControl [5]) s = (s', Raise e) /\
    f_points c = [1 # 2; 1] /\ a_t s = 0 /\ a_t s' == 1 /\ a_x s' = [8] /\ stored "x" s' = stored "x" s ++ [(a_t s', [8])].
Proof. exact half_advanced. Qed.
Print Assumptions C43_failure_changes_refuted.

(** The entries of the measurements have as many names as there are states, whatever the
    number of rows of C. *)
Theorem C43_labels_refuted :
  exists c s e, new_plant (fun k n => k) c [3] None None = Ok s /\ f_c c = eye 2 /\
    look "meas" (a_data s) = Some e /\ length (e_names e) = 1%nat /\ mrows (e_values e) = 2%nat.
Proof. exact labels. Qed.
Print Assumptions C43_labels_refuted.

(** Two samples of the tank, then a control function. *)
Example C43_ex :
  let c := tank_config 2 [1 # 2; 1] false in
  let step := plant_step (fun _ _ => ""%string) euler [] (fun _ q => q) (fun _ => []) (fun _ => []) c in
  fitting c /\ sized_integrator euler (length (m_y (f_model c))) /\ proper_points (f_points c) /\
  exists s s', new_plant (fun _ _ => ""%string) c [3] None None = Ok s /\
    run_all step [SetControl [1]; SetFunction (fun t => Ok [Qred (t - 3)])] s = (s', Ok tt) /\
    map fst (stored "x" s') = [0; 0 + (1 # 2) * 2; 0 + 1 * 2; 0 + 1 * 2 + (1 # 2) * 2; 0 + 1 * 2 + 1 * 2] /\
    map snd (stored "x" s') = [[3]; [4]; [5]; [4]; [4]] /\ map snd (stored "u" s') = [[0]; [1]; [1]; [-1]; [0]] /\
    map (map Qred) (map snd (stored "meas" s')) = [[3; 5]; [5; 15]; [4; 12]].
Proof. exact two_samples. Qed.

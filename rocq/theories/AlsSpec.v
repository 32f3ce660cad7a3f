(** Specification vocabulary for what the solutions of a relaxed problem say about the
    problem it was made from. *)
From Coq Require Import String Qabs.
From Verif Require Import Base ExprModel NlpModel NlpSpec SysModel SysSpec OcpModel OcpSpec LagSpec
  DiscModel DiscSpec ColSpec DirSpec AugModel AugSpec.
Local Open Scope list_scope.

(** ** The relaxed problem *)

(** Everything the user wrote, and the states, are older than [c]. *)
Definition written_before (o : ocp) (c : sym) : Prop :=
  (forall e v, In e (written o) -> mentions e v -> (v < c)%nat) /\ (forall v, In v (m_x (o_model o)) -> (v < c)%nat).

(** The numbers of the algebraic variables that become controls: those named, or those with
    the numbers of the equations; none if no equation is relaxed. *)
Definition freed (o : ocp) (rq : request) : list nat :=
  match wanted o rq with
  | [] => []
  | _ => match rq_algebraic_var rq with Some l => l | None => wanted o rq end
  end.

(** [o'] is [o] without the algebraic equations [idx] and the time equalities [eqs]; the
    algebraic variables [vidx] have become controls with the same bounds; there are new
    parameters [mu] and element-wise parameters [par], and a penalty in the running cost,
    with multipliers [pol].  Everything else is as before. *)
Record loosened (F : nat -> Q -> Q) (idx vidx eqs : list nat) (mu par : list sym) (pol : list expr) (o o' : ocp) : Prop :=
  mkLoosened
  { lo_same : let m := o_model o in let m' := o_model o' in
      (m_x m', m_x_0 m', m_t m', m_tau m') = (m_x m, m_x_0 m, m_t m, m_tau m) /\
      (o_t_0 o', o_t_f o', o_eta o', o_p_opt o', o_theta_opt o') = (o_t_0 o, o_t_f o, o_eta o, o_p_opt o, o_theta_opt o) /\
      (o_x_min o', o_x_max o', (o_p_min o', o_p_max o', o_th_min o', o_th_max o')) =
      (o_x_min o, o_x_max o, (o_p_min o, o_p_max o, o_th_min o, o_th_max o)) /\
      o_when_ineq o' = o_when_ineq o /\ o_positive o' = o_positive o;
    lo_variables : exists y, picks (m_y (o_model o)) vidx y /\
      m_y (o_model o') = others vidx (m_y (o_model o)) /\ m_u (o_model o') = m_u (o_model o) ++ y /\
      m_p (o_model o') = m_p (o_model o) ++ mu /\ m_theta (o_model o') = m_theta (o_model o) ++ par;
    lo_bounds : exists lo hi, picks (o_y_min o) vidx lo /\ picks (o_y_max o) vidx hi /\
      o_y_min o' = others vidx (o_y_min o) /\ o_y_max o' = others vidx (o_y_max o) /\
      o_u_min o' = o_u_min o ++ lo /\ o_u_max o' = o_u_max o ++ hi /\
      o_du_min o' = o_du_min o ++ repeat NInf (length vidx) /\ o_du_max o' = o_du_max o ++ repeat PInf (length vidx);
    lo_equations : m_ode (o_model o') = m_ode (o_model o) /\ m_alg (o_model o') = others idx (m_alg (o_model o)) /\
      o_g_eq o' = others eqs (o_g_eq o) /\ o_g_ineq o' = o_g_ineq o /\
      o_h_initial o' = o_h_initial o /\ o_h_final o' = o_h_final o /\ o_h o' = o_h o /\ o_V o' = o_V o /\ o_S o' = o_S o;
    lo_when : o_when_eq o' = others eqs (o_when_eq o);
    lo_cost : exists ga ge, picks (m_alg (o_model o)) idx ga /\ picks (o_g_eq o) eqs ge /\
      length pol = length (ga ++ ge) /\ length mu = length (ga ++ ge) /\
      forall env, Forall2 (fun l l' => eval F env l' == eval F env l +
        penalty_value (map (eval F env) pol) (map env mu) (map (eval F env) (ga ++ ge)))%Q (o_L o) (o_L o') }.

(** ** Trajectories *)

(** [q] and [c] for the problem [o], and [q'] and [c'] for the relaxed problem, are the same
    trajectory: the algebraic variables [vidx] of one are the last controls of the other. *)
Record same_trajectory (o : ocp) (vidx : list nat) (elements : nat) (q : trajectory) (c : nat -> nat -> list Q)
    (q' : trajectory) (c' : nat -> nat -> list Q) : Prop := mkSameTrajectory
  { st_x : forall el i, (el < elements)%nat -> (i < length (m_x (o_model o)))%nat -> q_x q' el i = q_x q el i;
    st_y : forall el i j, (el < elements)%nat ->
      nth_error (others vidx (seq 0 (length (m_y (o_model o))))) j = Some i -> q_y q' el j = q_y q el i;
    st_freed : forall el i j, (el < elements)%nat -> nth_error vidx j = Some i ->
      c' el (length (m_u (o_model o)) + j)%nat = q_y q el i;
    st_u : forall el i, (el < elements)%nat -> (i < length (m_u (o_model o)))%nat -> c' el i = c el i;
    st_par : forall el i, (el < elements)%nat -> (i < length (m_u (o_model o)))%nat ->
      (nth i (q_u q' el) 0 == nth i (q_u q el) 0)%Q;
    st_p : q_p q = firstn (length (m_p (o_model o))) (q_p q');
    st_theta : forall el, (el < elements)%nat -> q_theta q el = firstn (length (m_theta (o_model o))) (q_theta q' el);
    st_rest : q_eta q = q_eta q' /\ q_x0 q = q_x0 q' /\ q_last_u q = firstn (length (m_u (o_model o))) (q_last_u q') }.

(** Trajectories of the right size for the problem [o]. *)
Record shaped (o : ocp) (upts pts : list Q) (q : trajectory) : Prop := mkShaped
  { sh_x : forall el i, (length (q_x q el i) <= S (length pts))%nat;
    sh_y : forall el i, (length (q_y q el i) <= length pts)%nat;
    sh_u : forall el, length (q_u q el) = (length upts * length (m_u (o_model o)))%nat;
    sh_p : length (q_p q) = length (m_p (o_model o));
    sh_theta : forall el, length (q_theta q el) = length (m_theta (o_model o));
    sh_eta : length (q_eta q) = length (o_eta o) }.

(** The penalty on a trajectory of the relaxed problem, integrated with the weights [b]. *)
Definition penalty_total (F : nat -> Q -> Q) (o' : ocp) (elements : nat) (q' : trajectory) (c' : nat -> nat -> list Q)
    (pol : list expr) (mu : list sym) (g : list expr) (pts b : list Q) : Q :=
  qsum (map (fun el => user_step o' elements *
    qsum (map (fun tb => snd tb *
      (let env := user_point o' elements q' c' el (fst tb) in
       penalty_value (map (eval F env) pol) (map env mu) (map (eval F env) g))) (combine pts b)))
    (seq 0 elements))%Q.

(** ** What is relaxed, and by which options *)

(** The relaxations for which a solution of the relaxed problem can be one of the problem of
    the user: as many equations as variables, each once; time equalities imposed at the
    collocation points; and bounds of states are not relaxed. *)
Record relaxable (o : ocp) (c : sym) (rq : request) : Prop := mkRelaxable
  { rl_names : NoDup (m_y (o_model o)) /\ NoDup (m_alg (o_model o));
    rl_count : length (m_alg (o_model o)) = length (m_y (o_model o));
    rl_aligned : aligned o;
    rl_own : incl (o_p_opt o) (m_p (o_model o)) /\ incl (o_theta_opt o) (m_theta (o_model o));
    rl_before : written_before o c;
    rl_times : length (o_when_eq o) = length (o_g_eq o);
    rl_once : NoDup (wanted o rq) /\ NoDup (rq_equalities rq);
    rl_pairs : length (freed o rq) = length (wanted o rq);
    rl_default : forall i w, In i (rq_equalities rq) -> nth_error (o_when_eq o) i = Some w -> w = "default"%string;
    rl_states : rq_states rq = false }.

(** Multipliers as polynomials of a degree at least one. *)
Record parametrised (points : nat -> list Q) (opts : al_options) : Prop := mkParametrised
  { pa_done : al_skip_initialize opts = false /\ al_skip_parametrize opts = false;
    pa_degree : (0 < al_degree opts)%nat;
    pa_points : length (points (al_degree opts)) = al_degree opts /\ distinct (points (al_degree opts)) }.

(** The equations [rq] of the problem [o] have been relaxed, with the result [rx]; [same]
    recognises an equation. *)
Record relaxation (same : expr -> expr -> bool) (points : nat -> list Q) (opts : al_options) (rq : request)
    (o : ocp) (c : sym) (rx : relaxing) : Prop := mkRelaxation
  { re_same : forall a b, same a b = true <-> a = b;
    re_able : relaxable o c rq;
    re_options : parametrised points opts;
    re_done : relax same points opts rq (start_relaxing o c) = (rx, Ok tt) }.

(** The relaxed equations hold at the collocation points of all elements. *)
Definition restored_equations (F : nat -> Q -> Q) (rx : relaxing) (elements : nat) (q' : trajectory) (c' : nat -> nat -> list Q)
    (pts : list Q) : Prop :=
  forall el tau, (el < elements)%nat -> In tau pts -> user_vanishes F (rx_problem rx) elements q' c' (rx_alg rx ++ rx_eq rx) el tau.
(** They hold up to [eps], with weights that are not negative and multipliers whose
    absolute values add up to at most [M]. *)
Definition nearly_restored (F : nat -> Q -> Q) (rx : relaxing) (elements : nat) (q' : trajectory) (c' : nat -> nat -> list Q)
    (pts : list Q) (M eps : Q) : Prop :=
  forall el tau, (el < elements)%nat -> In tau pts ->
    let env := user_point (rx_problem rx) elements q' c' el tau in
    Forall (fun g => Qabs (eval F env g) <= eps)%Q (rx_alg rx ++ rx_eq rx) /\
    Forall (fun m => 0 <= env m)%Q (rx_mu_sym rx) /\
    (qsum (map (fun n => Qabs (eval F env n)) (rx_nu_pol rx)) <= M)%Q.

(** ** Example data *)

(** A tank with level 10, outflow 20 with the equation outflow = level, and inflow 30, whose
    square is the cost.  The level starts at 1. *)
Definition drain_history : list ocp_op :=
  [ PIncludeState [10%nat] None (Some [1%Q]) BNone BNone None [12%nat] false;
    PIncludeAlgebraic [20%nat] None (Some [Fin 0%Q]) None None;
    PIncludeControl [30%nat] (Some [Fin (-1)%Q]) (Some [Fin 1%Q]) None None None;
    PIncludeEquations [] (Some [EBin OSub (EVar 30) (EVar 20)]) (Some [10%nat]) (Some [EBin OSub (EVar 20) (EVar 10)]) ].
Definition drain_cost : expr := EBin OMul (EVar 30) (EVar 30).
Definition drain_problem (more : list ocp_op) : res ocp :=
  match new_ocp (new_model 1 2) None 0%Q 2%Q with
  | Raise e => Raise e
  | Ok o =>
      match run_all (ocp_step (fun _ _ => false)) (drain_history ++ more) o with
      | (_, Raise e) => Raise e
      | (o1, Ok _) => Ok (set_o_L [drain_cost] o1)
      end
  end.
(** Two collocation points, two elements. *)
Definition drain_options : al_options := pond_options "bounded-increase" false 3.
Definition drain_relaxed (more : list ocp_op) (rq : request) : res relaxing :=
  match drain_problem more with
  | Raise e => Raise e
  | Ok o =>
      match relax same_expr radau drain_options rq (start_relaxing o 100) with
      | (_, Raise e) => Raise e
      | (s, Ok _) => Ok s
      end
  end.
Definition drain_method (more : list ocp_op) (rq : request) (degree_control : nat) : res method :=
  match drain_relaxed more rq with
  | Raise e => Raise e
  | Ok s =>
      match direct_prepare radau degree_control 60 61 200 (rx_problem s) with
      | (_, Raise e) => Raise e
      | (o, Ok _) => new_method o 2 degree_control 2 true false true false
      end
  end.
(** The equality "level = 4/11" at the end of every element, and the request to relax it. *)
Definition drain_target : list ocp_op :=
  [PTimeEquality [EBin OSub (EVar 10) (EConst (4 # 11)%Q)] "end"%string].
Definition target_only : request := mkRequest (Some []) None [0%nat] false.

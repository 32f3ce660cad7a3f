(** Specification vocabulary for the direct method: trajectories of the problem of the
    user, with controls that are polynomials on every element, and their cost. *)
From Coq Require Import String.
From Verif Require Import Base ExprModel NlpModel NlpSpec SysModel SysSpec OcpModel OcpSpec
  LagSpec DiscModel DiscSpec ColSpec.
Local Open Scope list_scope.

(** ** Controls *)

(** The [n] polynomials [c] of the lowest degree that pass through the parameters: the
    first [n] at the first point, the next [n] at the second, and so on. *)
Definition through (pts : list Q) (n : nat) (par : list Q) (c : nat -> list Q) : Prop :=
  forall i, (i < n)%nat -> (length (c i) <= length pts)%nat /\
    forall j tau v, nth_error pts j = Some tau -> nth_error par (j * n + i) = Some v -> (poly (c i) tau == v)%Q.

(** The same values of all symbols, except that the controls follow the polynomials. *)
Definition with_controls (m : model) (env : sym -> Q) (c : nat -> list Q) : sym -> Q :=
  assign env (m_u m) (map (fun i => poly (c i) (env (m_tau m))) (seq 0 (length (m_u m)))).
(** [e'] is [e] with the controls given by the parameters [par]. *)
Definition steered (F : nat -> Q -> Q) (m : model) (pts : list Q) (par : list sym) (e e' : expr) : Prop :=
  forall env c, through pts (length (m_u m)) (map env par) c ->
    (eval F env e' == eval F (with_controls m env c) e)%Q.

(** ** Prepared problems *)

(** The prepared problem [o']: the problem [o] with controls given by parameters and one
    more state, from zero, whose derivative is the running cost [l], which is added to
    the final cost. *)
Record prepared (F : nat -> Q -> Q) (pts : list Q) (x_c x_c0 : sym) (o o' : ocp) : Prop := mkPrepared
  { pr_same : let m := o_model o in let m' := o_model o' in
      (m_y m', m_u m', m_p m', m_theta m', (m_t m', m_tau m')) = (m_y m, m_u m, m_p m, m_theta m, (m_t m, m_tau m)) /\
      (o_t_0 o', o_t_f o', o_eta o', o_p_opt o', o_theta_opt o') = (o_t_0 o, o_t_f o, o_eta o, o_p_opt o, o_theta_opt o) /\
      (o_y_min o', o_y_max o', o_u_min o', o_u_max o', (o_p_min o', o_p_max o', o_th_min o', o_th_max o')) =
      (o_y_min o, o_y_max o, o_u_min o, o_u_max o, (o_p_min o, o_p_max o, o_th_min o, o_th_max o)) /\
      (o_du_min o', o_du_max o') = (o_du_min o, o_du_max o) /\
      (o_when_ineq o', o_when_eq o') = (o_when_ineq o, o_when_eq o);
    pr_parameters : length (m_u_par (o_model o')) = (length pts * length (m_u (o_model o)))%nat /\
      NoDup (m_u_par (o_model o'));
    pr_states : m_x (o_model o') = m_x (o_model o) ++ [x_c] /\ m_x_0 (o_model o') = m_x_0 (o_model o) ++ [x_c0] /\
      o_x_0 o' = o_x_0 o ++ [0%Q] /\
      o_x_min o' = o_x_min o ++ [if o_positive o then Fin 0%Q else NInf] /\ o_x_max o' = o_x_max o ++ [PInf];
    pr_dynamics : exists l, o_L o = [l] /\
      Forall2 (fun old new => fst new = fst old /\
                 match snd old, snd new with
                 | Some e, Some e' => steered F (o_model o) pts (m_u_par (o_model o')) e e'
                 | None, None => True
                 | _, _ => False
                 end) (m_ode (o_model o) ++ [(x_c, Some l)]) (m_ode (o_model o'));
    pr_constraints : let rewritten := Forall2 (steered F (o_model o) pts (m_u_par (o_model o'))) in
      rewritten (m_alg (o_model o)) (m_alg (o_model o')) /\
      rewritten (o_h_initial o ++ [EBin OSub (EVar x_c0) (EVar x_c)]) (o_h_initial o') /\
      rewritten (o_h_final o) (o_h_final o') /\ rewritten (o_h o) (o_h o') /\
      rewritten (o_g_ineq o) (o_g_ineq o') /\ rewritten (o_g_eq o) (o_g_eq o');
    pr_costs : exists v v', o_V o = [v] /\ o_V o' = [v'] /\
      steered F (o_model o) pts (m_u_par (o_model o')) (EBin OAdd v (EVar x_c)) v' /\
      Forall2 (steered F (o_model o) pts (m_u_par (o_model o'))) (o_S o) (o_S o') }.

(** ** Trajectories of the problem of the user *)

Section User.
  (** The problem, the number of elements, states and algebraic variables [q] and the
      controls: one polynomial per element and component. *)
  Variables (F : nat -> Q -> Q) (o : ocp) (elements : nat) (q : trajectory) (c : nat -> nat -> list Q).
  Let m : model := o_model o.

  Definition user_step : Q := ((o_t_f o - o_t_0 o) / inject_Z (Z.of_nat elements))%Q.
  Definition user_symbols : list sym :=
    m_t m :: m_tau m :: m_x m ++ m_y m ++ m_u m ++ m_p m ++ m_theta m ++ m_x_0 m ++ o_eta o.
  (** The values of all symbols at relative time [tau] of element [el]. *)
  Definition user_point (el : nat) (tau : Q) : sym -> Q :=
    assign (fun _ => 0%Q) user_symbols
      ((user_step * inject_Z (Z.of_nat el) + user_step * tau)%Q :: tau ::
       map (fun i => poly (q_x q el i) tau) (seq 0 (length (m_x m))) ++
       map (fun i => poly (q_y q el i) tau) (seq 0 (length (m_y m))) ++
       map (fun i => poly (c el i) tau) (seq 0 (length (m_u m))) ++
       q_p q ++ q_theta q el ++ firstn (length (m_x m)) (q_x0 q) ++ q_eta q).
  Definition user_vanishes (es : list expr) (el : nat) (tau : Q) : Prop :=
    forall e, In e es -> (eval F (user_point el tau) e == 0)%Q.

  Record user_collocated (pts : list Q) : Prop := mkUserCollocated
    { us_initial : user_vanishes (o_h_initial o) 0 0%Q;
      us_joined : forall el i, (S el < elements)%nat -> (i < length (m_x m))%nat ->
        (poly (q_x q el i) 1 == poly (q_x q (S el) i) 0)%Q;
      us_dynamics : forall el tau i s e, (el < elements)%nat -> In tau pts ->
        nth_error (m_ode m) i = Some (s, Some e) ->
        (poly (derivative (q_x q el i)) tau == user_step * eval F (user_point el tau) e)%Q;
      us_algebraic : forall el tau, (el < elements)%nat -> In tau pts -> m_y m <> [] ->
        user_vanishes (m_alg m) el tau;
      us_increments : forall el i lo hi, (el < elements)%nat ->
        nth_error (o_du_min o) i = Some lo -> nth_error (o_du_max o) i = Some hi ->
        ext_le lo (Fin (increment q el i)) /\ ext_le (Fin (increment q el i)) hi;
      us_inequalities : forall el j g w tau, (el < elements)%nat ->
        nth_error (o_g_ineq o) j = Some g -> nth_error (o_when_ineq o) j = Some w ->
        In tau (imposed pts w) -> (eval F (user_point el tau) g <= 0)%Q;
      us_equalities : forall el j g w tau, (el < elements)%nat ->
        nth_error (o_g_eq o) j = Some g -> nth_error (o_when_eq o) j = Some w ->
        In tau (imposed pts w) -> (eval F (user_point el tau) g == 0)%Q;
      us_final : user_vanishes (o_h_final o) (elements - 1) 1%Q;
      us_independent : user_vanishes (o_h o) (elements - 1) 1%Q }.

  (** The cost state: component [n] of the states accumulates the running cost. *)
  Record accumulates (n : nat) (running : expr) (pts : list Q) : Prop := mkAccumulates
    { ac_start : (poly (q_x q 0 n) 0 == nth n (q_x0 q) 0)%Q;
      ac_joined : forall el, (S el < elements)%nat -> (poly (q_x q el n) 1 == poly (q_x q (S el) n) 0)%Q;
      ac_rate : forall el tau, (el < elements)%nat -> In tau pts ->
        (poly (derivative (q_x q el n)) tau == user_step * eval F (user_point el tau) running)%Q }.

  (** What a trajectory costs the user: the final cost, the costs at the ends of the
      elements, and the running cost integrated with the weights [b] at the points. *)
  Definition user_cost (final running at_ends : expr) (pts b : list Q) : Q :=
    (eval F (user_point (elements - 1) 1) final +
     qsum (map (fun el => eval F (user_point el 1) at_ends) (seq 0 elements)) +
     qsum (map (fun el => user_step * qsum (map (fun tb => snd tb * eval F (user_point el (fst tb)) running) (combine pts b)))
               (seq 0 elements)))%Q.
End User.

(** Weights that integrate exactly from 0 to 1: applied to the derivative of any
    polynomial of a degree up to the number of points they give its increase. *)
Definition exact_rule (pts b : list Q) : Prop :=
  length b = length pts /\
  forall c, (length c <= S (length pts))%nat ->
    (poly c 1 - poly c 0 == qsum (map (fun tb => snd tb * poly (derivative c) (fst tb)) (combine pts b)))%Q.

(** Trajectories of the right size, on the elements of the method. *)
Record fits (k : method) (pts : list Q) (q : trajectory) : Prop := mkFits
  { fi_x : forall el i, (el < k_elements k)%nat -> (i < length (m_x (k_model k)))%nat ->
      (length (q_x q el i) <= S (length pts))%nat;
    fi_u : forall el, (el < k_elements k)%nat -> length (q_u q el) = length (m_u_par (k_model k));
    fi_p : length (q_p q) = length (m_p (k_model k));
    fi_theta : forall el, (el < k_elements k)%nat -> length (q_theta q el) = length (m_theta (k_model k));
    fi_x0 : length (q_x0 q) = length (m_x (k_model k)) }.

(** The trajectory with other polynomials for component [n] of the states. *)
Definition with_cost (q : trajectory) (n : nat) (g : nat -> list Q) : trajectory :=
  mkTrajectory (fun el i => if Nat.eqb i n then g el else q_x q el i) (q_y q) (q_u q) (q_p q) (q_theta q)
    (q_eta q) (q_x0 q) (q_last_u q).

(** Everything the user wrote. *)
Definition written (o : ocp) : list expr :=
  o_L o ++ o_V o ++ o_S o ++ o_h_initial o ++ o_h_final o ++ o_h o ++ o_g_ineq o ++ o_g_eq o ++
  m_alg (o_model o) ++ flat_map (fun se => match snd se with Some e => [e] | None => [] end) (m_ode (o_model o)).

(** A problem the direct method can prepare with the symbols [new]: one equation per
    state, and symbols the user has not used. *)
Record posed (o : ocp) (new : list sym) : Prop := mkPosed
  { po_equations : determined (o_model o);
    po_initial : length (m_x_0 (o_model o)) = length (m_x (o_model o));
    po_symbols : NoDup (user_symbols o ++ new);
    po_new : forall e s, In e (written o) -> In s new -> ~ mentions e s }.

(** ** Optimal trajectories *)

(** The bounds of the user, where the transcription imposes them: states at the start of
    every element and at the collocation points, algebraic variables at the collocation
    points, controls at the control points, and parameters that are decided. *)
Record user_within (o : ocp) (elements : nat) (q : trajectory) (c : nat -> nat -> list Q) (upts pts : list Q) : Prop :=
  mkUserWithin
  { wi_x : forall el tau i lo hi, (el < elements)%nat -> In tau (0%Q :: pts) -> (i < length (m_x (o_model o)))%nat ->
      nth_error (o_x_min o) i = Some lo -> nth_error (o_x_max o) i = Some hi ->
      ext_le lo (Fin (poly (q_x q el i) tau)) /\ ext_le (Fin (poly (q_x q el i) tau)) hi;
    wi_y : forall el tau i lo hi, (el < elements)%nat -> In tau pts -> (i < length (m_y (o_model o)))%nat ->
      nth_error (o_y_min o) i = Some lo -> nth_error (o_y_max o) i = Some hi ->
      ext_le lo (Fin (poly (q_y q el i) tau)) /\ ext_le (Fin (poly (q_y q el i) tau)) hi;
    wi_u : forall el tau i lo hi, (el < elements)%nat -> In tau upts -> (i < length (m_u (o_model o)))%nat ->
      nth_error (o_u_min o) i = Some lo -> nth_error (o_u_max o) i = Some hi ->
      ext_le lo (Fin (poly (c el i) tau)) /\ ext_le (Fin (poly (c el i) tau)) hi;
    wi_p : forall j i s a lo hi, nth_error (o_p_opt o) j = Some s -> nth_error (m_p (o_model o)) i = Some s ->
      nth_error (q_p q) i = Some a -> nth_error (o_p_min o) j = Some lo -> nth_error (o_p_max o) j = Some hi ->
      ext_le lo (Fin a) /\ ext_le (Fin a) hi;
    wi_theta : forall el j i s a lo hi, (el < elements)%nat ->
      nth_error (o_theta_opt o) j = Some s -> nth_error (m_theta (o_model o)) i = Some s ->
      nth_error (q_theta q el) i = Some a -> nth_error (o_th_min o) j = Some lo -> nth_error (o_th_max o) j = Some hi ->
      ext_le lo (Fin a) /\ ext_le (Fin a) hi }.

(** Trajectories with the same data: initial condition, last control and parameters that
    are not decided. *)
Record same_data (o : ocp) (elements : nat) (q q' : trajectory) : Prop := mkSameData
  { sd_x0 : q_x0 q' = q_x0 q;
    sd_last_u : q_last_u q' = q_last_u q;
    sd_p : forall i s, nth_error (m_p (o_model o)) i = Some s -> ~ In s (o_p_opt o) ->
      nth_error (q_p q') i = nth_error (q_p q) i;
    sd_theta : forall el i s, (el < elements)%nat -> nth_error (m_theta (o_model o)) i = Some s ->
      ~ In s (o_theta_opt o) -> nth_error (q_theta q' el) i = nth_error (q_theta q el) i }.

(** On every element the controls follow the parameters. *)
Definition followed (o : ocp) (elements : nat) (upts : list Q) (q : trajectory) (c : nat -> nat -> list Q) : Prop :=
  forall el, (el < elements)%nat -> through upts (length (m_u (o_model o))) (q_u q el) (c el).

(** The problem [o] of the user has been prepared for the method [k], and the nonlinear
    program [nl] with the parameters [s] and the decision variables [r] created. *)
Record direct_setting (points : nat -> list Q) (dfun : nat -> expr -> expr) (k : method) (c0 : sym)
    (nl : nlp) (s : par_syms) (r : traj sym) (o : ocp) (x_c x_c0 first : sym) : Prop := mkDirectSetting
  { ds_transcribable : transcribable k;
    ds_points : collocation_points (points (k_degree k)) (k_degree k);
    ds_degree : (0 < k_degree_control k)%nat;
    ds_control_points : collocation_points (points (k_degree_control k)) (k_degree_control k);
    ds_prepared : direct_prepare points (k_degree_control k) x_c x_c0 first o = (k_problem k, Ok tt);
    ds_posed : posed o (x_c :: x_c0 :: m_u_par (k_model k));
    ds_created : create_optimization_problem (collocation_discretize points dfun k) k c0 = Ok (nl, s, r);
    ds_direct : k_direct k = true }.

(** ** An example *)

(** A level that is to be kept at 1 by an inflow between -2 and 2, over two elements of
    length 1 with constant inflow. *)
Definition radau (degree : nat) : list Q :=
  match degree with 1%nat => [1%Q] | _ => [(1 # 3)%Q; 1%Q] end.
Definition level_cost : expr :=
  EBin OMul (EBin OSub (EVar 10) (EConst 1%Q)) (EBin OSub (EVar 10) (EConst 1%Q)).
Definition level_history : list ocp_op :=
  [ PIncludeState [10] None (Some [1%Q]) BNone BNone None [12] false;
    PIncludeControl [30] (Some [Fin (-2)%Q]) (Some [Fin 2%Q]) None None None;
    PIncludeEquations [] (Some [EVar 30]) (Some [10]) None ].
Definition level_problem (positive : bool) : res ocp :=
  match new_ocp (new_model 1 2) None 0%Q 2%Q with
  | Raise e => Raise e
  | Ok o =>
      match run_all (ocp_step (fun _ _ => false)) level_history o with
      | (_, Raise e) => Raise e
      | (o1, Ok _) => Ok (set_o_positive positive (set_o_L [level_cost] o1))
      end
  end.
Definition level_method (positive : bool) : res method :=
  match level_problem positive with
  | Raise e => Raise e
  | Ok o =>
      match direct_prepare radau 1 60 61 70 o with
      | (_, Raise e) => Raise e
      | (o', Ok _) => new_method o' 2 1 2 true false true false
      end
  end.
(** The level starts at [start] and the inflow is [a] on the first element and zero on
    the second. *)
Definition level_moved (start a : Q) : trajectory :=
  mkTrajectory (fun el i => match el, i with 0%nat, 0%nat => [start; a] | _, 0%nat => [(start + a)%Q] | _, _ => [] end)
    (fun _ _ => []) (fun el => match el with 0%nat => [a] | _ => [0%Q] end) [] (fun _ => []) [] [start; 0%Q] [].
Definition level_inflow (a : Q) (el i : nat) : list Q :=
  match el with 0%nat => [a] | _ => [0%Q] end.

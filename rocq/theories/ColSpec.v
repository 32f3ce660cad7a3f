(** Specification vocabulary for the transcription by collocation: piecewise polynomial
    trajectories and what they have to satisfy. *)
From Coq Require Import String Sorted.
From Verif Require Import Base ExprModel NlpModel NlpSpec SysModel SysSpec OcpModel OcpSpec
  LagSpec DiscModel DiscSpec.
Local Open Scope list_scope.

(** ** Polynomials *)

(** Coefficients of the derivative: c1, 2 c2, 3 c3, ... *)
Fixpoint scaled_from (n : nat) (c : list Q) : list Q :=
  match c with
  | [] => []
  | a :: c' => (inject_Z (Z.of_nat n) * a)%Q :: scaled_from (S n) c'
  end.
Definition derivative (c : list Q) : list Q :=
  match c with [] => [] | _ :: c' => scaled_from 1 c' end.

(** Collocation points: increasing, after 0, ending in 1. *)
Definition collocation_points (pts : list Q) (degree : nat) : Prop :=
  length pts = degree /\ Sorted Qlt (0%Q :: pts) /\ (last pts 0 == 1)%Q.

(** ** Trajectories *)

(** One polynomial per element and component for the states and the algebraic
    variables, as functions of the relative time of the element (0 to 1); the control
    parameters per element; parameters, element-wise parameters, free final variables,
    initial condition and last control applied before. *)
Record trajectory := mkTrajectory
  { q_x : nat -> nat -> list Q; q_y : nat -> nat -> list Q; q_u : nat -> list Q;
    q_p : list Q; q_theta : nat -> list Q; q_eta : list Q; q_x0 : list Q; q_last_u : list Q }.

Section Trajectory.
  Variables (F : nat -> Q -> Q) (k : method) (q : trajectory).
  Let m : model := k_model k.
  Let o : ocp := k_problem k.

  Definition step_size : Q := ((o_t_f o - o_t_0 o) / inject_Z (Z.of_nat (k_elements k)))%Q.
  Definition x_at (el : nat) (tau : Q) : list Q :=
    map (fun i => poly (q_x q el i) tau) (seq 0 (length (m_x m))).
  Definition y_at (el : nat) (tau : Q) : list Q :=
    map (fun i => poly (q_y q el i) tau) (seq 0 (length (m_y m))).

  (** The values of all symbols of the problem at relative time [tau] of element [el].
      The time of the NLP starts at 0. *)
  Definition problem_symbols : list sym :=
    m_t m :: m_tau m :: m_x m ++ m_y m ++ m_p m ++ m_theta m ++ m_u_par m ++ m_x_0 m ++ o_eta o.
  Definition at_point (el : nat) (tau : Q) : sym -> Q :=
    assign (fun _ => 0%Q) problem_symbols
      ((step_size * inject_Z (Z.of_nat el) + step_size * tau)%Q :: tau ::
       x_at el tau ++ y_at el tau ++ q_p q ++ q_theta q el ++ q_u q el ++ q_x0 q ++ q_eta q).
  Definition vanishes (es : list expr) (el : nat) (tau : Q) : Prop :=
    forall e, In e es -> (eval F (at_point el tau) e == 0)%Q.

  (** The relative times at which a constraint is imposed. *)
  Definition imposed (pts : list Q) (w : string) : list Q :=
    if String.eqb w "start" then [0%Q]
    else if String.eqb w "end" then [1%Q]
    else if String.eqb w "default" then pts
    else [].

  (** The control before element [el]. *)
  Definition control_before (el : nat) : list Q :=
    match el with 0 => q_last_u q | S e => q_u q e end.
  Definition increment (el i : nat) : Q :=
    (nth i (q_u q el) 0 - nth i (control_before el) 0)%Q.

  (** What a trajectory has to satisfy. *)
  Record collocated (pts : list Q) : Prop := mkCollocated
    { co_initial : vanishes (o_h_initial o) 0 0%Q;
      co_joined : forall el i, (S el < k_elements k)%nat -> (i < length (m_x m))%nat ->
        (poly (q_x q el i) 1 == poly (q_x q (S el) i) 0)%Q;
      co_dynamics : forall el tau i s e, (el < k_elements k)%nat -> In tau pts ->
        nth_error (m_ode m) i = Some (s, Some e) ->
        (poly (derivative (q_x q el i)) tau == step_size * eval F (at_point el tau) e)%Q;
      co_algebraic : forall el tau, (el < k_elements k)%nat -> In tau pts -> m_y m <> [] ->
        vanishes (m_alg m) el tau;
      co_increments : forall el i lo hi, (el < k_elements k)%nat ->
        nth_error (o_du_min o) i = Some lo -> nth_error (o_du_max o) i = Some hi ->
        ext_le lo (Fin (increment el i)) /\ ext_le (Fin (increment el i)) hi;
      co_inequalities : forall el j g w tau, (el < k_elements k)%nat ->
        nth_error (o_g_ineq o) j = Some g -> nth_error (o_when_ineq o) j = Some w ->
        In tau (imposed pts w) -> (eval F (at_point el tau) g <= 0)%Q;
      co_equalities : forall el j g w tau, (el < k_elements k)%nat ->
        nth_error (o_g_eq o) j = Some g -> nth_error (o_when_eq o) j = Some w ->
        In tau (imposed pts w) -> (eval F (at_point el tau) g == 0)%Q;
      co_final : vanishes (o_h_final o) (k_elements k - 1) 1%Q;
      co_independent : vanishes (o_h o) (k_elements k - 1) 1%Q }.

  (** What it costs: the final cost and the running costs at the ends of the elements. *)
  Definition trajectory_cost (final running : expr) : Q :=
    (eval F (at_point (k_elements k - 1) 1) final +
     qsum (map (fun el => eval F (at_point el 1) running) (seq 0 (k_elements k))))%Q.
End Trajectory.

(** ** Trajectories and decision variables *)

(** Values of the parameters [names]: those in [opt] are decided, the others given. *)
Definition chosen (names opt : list sym) (given decided values : list Q) : Prop :=
  length values = length names /\
  forall i n, nth_error names i = Some n ->
    (~ In n opt -> nth_error values i = nth_error given i) /\
    (forall j, nth_error opt j = Some n -> nth_error values i = nth_error decided j).

(** The trajectory of the decision variables [r] and of the parameters [s] at the point
    [env]: its polynomials have the values of the decision variables at the points, and
    no more coefficients than points. *)
Record describes (k : method) (pts : list Q) (env : sym -> Q) (s : par_syms) (r : traj sym)
    (q : trajectory) : Prop := mkDescribes
  { de_x : forall el i, (el < k_elements k)%nat -> (i < length (m_x (k_model k)))%nat ->
      (length (q_x q el i) <= S (length pts))%nat /\
      forall j tau v, nth_error (0%Q :: pts) j = Some tau -> entry (r_x r) el j i = Some v ->
        (poly (q_x q el i) tau == env v)%Q;
    de_y : forall el i, (el < k_elements k)%nat -> (i < length (m_y (k_model k)))%nat ->
      (length (q_y q el i) <= length pts)%nat /\
      forall j tau v, nth_error pts j = Some tau -> entry (r_y r) el j i = Some v ->
        (poly (q_y q el i) tau == env v)%Q;
    de_u : forall el l, nth_error (r_u r) el = Some l -> q_u q el = map env (concat l);
    de_p : chosen (m_p (k_model k)) (o_p_opt (k_problem k)) (map env (ps_p s)) (map env (r_p r)) (q_p q);
    de_theta : forall el given decided, nth_error (ps_theta s) el = Some given ->
      nth_error (r_theta r) el = Some decided ->
      chosen (m_theta (k_model k)) (o_theta_opt (k_problem k)) (map env given) (map env decided) (q_theta q el);
    de_eta : q_eta q = map env (r_eta r);
    de_x0 : q_x0 q = map env (ps_x0 s);
    de_last_u : q_last_u q = map env (ps_last_u s) }.

(** The decision variables are within the bounds of the problem. *)
Record bounded (k : method) (env : sym -> Q) (r : traj sym) : Prop := mkBounded
  { bd_x : forall el j i v lo hi, entry (r_x r) el j i = Some v ->
      nth_error (o_x_min (k_problem k)) i = Some lo -> nth_error (o_x_max (k_problem k)) i = Some hi ->
      ext_le lo (Fin (env v)) /\ ext_le (Fin (env v)) hi;
    bd_y : forall el j i v lo hi, entry (r_y r) el j i = Some v ->
      nth_error (o_y_min (k_problem k)) i = Some lo -> nth_error (o_y_max (k_problem k)) i = Some hi ->
      ext_le lo (Fin (env v)) /\ ext_le (Fin (env v)) hi;
    bd_u : forall el j i v lo hi, entry (r_u r) el j i = Some v ->
      nth_error (o_u_min (k_problem k)) i = Some lo -> nth_error (o_u_max (k_problem k)) i = Some hi ->
      ext_le lo (Fin (env v)) /\ ext_le (Fin (env v)) hi;
    bd_p : forall i v lo hi, nth_error (r_p r) i = Some v ->
      nth_error (o_p_min (k_problem k)) i = Some lo -> nth_error (o_p_max (k_problem k)) i = Some hi ->
      ext_le lo (Fin (env v)) /\ ext_le (Fin (env v)) hi;
    bd_theta : forall el i v lo hi, entry2 (r_theta r) el i = Some v ->
      nth_error (o_th_min (k_problem k)) i = Some lo -> nth_error (o_th_max (k_problem k)) i = Some hi ->
      ext_le lo (Fin (env v)) /\ ext_le (Fin (env v)) hi }.

(** ** Problems that can be transcribed *)

(** Every state has an equation, in the order of the states. *)
Definition determined (m : model) : Prop :=
  map fst (m_ode m) = m_x m /\ forall s oe, In (s, oe) (m_ode m) -> exists e, oe = Some e.

Record transcribable (k : method) : Prop := mkTranscribable
  { tr_degree : (2 <= k_degree k)%nat;
    tr_horizon : (o_t_0 (k_problem k) < o_t_f (k_problem k))%Q;
    tr_bounds : well_bounded (k_problem k);
    tr_symbols : NoDup (problem_symbols k);
    tr_own : optimises_own (k_problem k) /\ NoDup (o_p_opt (k_problem k)) /\ NoDup (o_theta_opt (k_problem k));
    tr_equations : determined (k_model k);
    tr_initial : length (m_x_0 (k_model k)) = length (m_x (k_model k));
    tr_controls : length (m_u_par (k_model k)) = (control_count k * length (m_u (k_model k)))%nat;
    tr_indirect : k_direct k = false -> m_u_par (k_model k) = [] }.

(** Number of constraints. *)
Definition bounded_increments (o : ocp) : nat :=
  length (filter (fun lh => match lh with (NInf, PInf) => false | _ => true end)
                 (combine (o_du_min o) (o_du_max o))).
Definition collocation_constraints (k : method) : nat :=
  let m := k_model k in
  let o := k_problem k in
  let times gs ws :=
    list_sum (map (fun gw : expr * string => length (imposed (repeat 0%Q (k_degree k)) (snd gw))) (combine gs ws)) in
  length (o_h_initial o) + (k_elements k - 1) * length (m_x m) +
  k_elements k * (k_degree k * length (m_x m) +
                  k_degree k * (match m_y m with [] => 0 | _ => length (m_alg m) end) +
                  bounded_increments o +
                  times (o_g_ineq o) (o_when_ineq o) + times (o_g_eq o) (o_when_eq o)) +
  length (o_h_final o) + length (o_h o).

(** ** Trajectories of the right size *)

Record sized (k : method) (pts : list Q) (q : trajectory) : Prop := mkSized
  { sz_x : forall el i, (length (q_x q el i) <= S (length pts))%nat;
    sz_y : forall el i, (length (q_y q el i) <= length pts)%nat;
    sz_u : forall el, length (q_u q el) = length (m_u_par (k_model k));
    sz_p : length (q_p q) = length (m_p (k_model k));
    sz_theta : forall el, length (q_theta q el) = length (m_theta (k_model k));
    sz_eta : length (q_eta q) = length (o_eta (k_problem k));
    sz_x0 : length (q_x0 q) = length (m_x (k_model k));
    sz_last_u : length (q_last_u q) = if k_last_u_par k then length (m_u (k_model k)) else 0%nat }.

(** ** An example *)

(** The cart with limits on the power at the collocation points, on the position at the
    end and on the change of the force, prepared by the direct method, with two elements
    and the collocation points 1/3 and 1. *)
Definition radau_two (degree : nat) : list Q := [(1 # 3)%Q; 1%Q].
Definition limited_cart_history : list ocp_op :=
  [ PIncludeParameter [40; 41]; PIncludeTheta [50; 51];
    PIncludeState [10; 11] None (Some [1%Q; 0%Q]) BNone (BVec [PInf; Fin 5%Q]) None [12; 13] false;
    PIncludeAlgebraic [20] None (Some [Fin 0%Q]) None None;
    PIncludeControl [30] (Some [Fin (-1)%Q]) (Some [Fin 1%Q]) (Some [Fin (-1#2)%Q]) (Some [Fin (1#2)%Q]) None;
    PIncludeEquations [] (Some [EVar 11; EBin OSub (EBin ODiv (EVar 30) (EVar 40)) (EBin OMul (EVar 41) (EVar 11))])
      (Some [10; 11]) (Some [EBin OSub (EVar 20) (EBin OAdd (EVar 50) (EVar 51))]);
    PSetPOpt [41] (Some [Fin 0%Q]) None; PSetThOpt [51] None None;
    PTimeInequality [EBin OSub (EVar 20) (EConst 3%Q)] "default"%string;
    PTimeInequality [EBin OSub (EVar 10) (EConst 4%Q)] "end"%string;
    PFinalEquality [EVar 11] ].
Definition limited_cart : res method :=
  match new_ocp (new_model 1 2) None 0%Q 10%Q with
  | Raise e => Raise e
  | Ok o =>
      match run_all (ocp_step (fun _ _ => false)) limited_cart_history o with
      | (_, Raise e) => Raise e
      | (o1, Ok _) =>
          match direct_prepare radau_two 1 60 61 70 (set_o_S [EVar 10] o1) with
          | (_, Raise e) => Raise e
          | (o2, Ok _) => new_method o2 2 1 2 true false true true
          end
      end
  end.
(** The cart at rest in position 1, without force. *)
Definition at_rest : trajectory :=
  mkTrajectory (fun _ i => match i with 0%nat => [1%Q] | _ => [] end) (fun _ _ => [2%Q]) (fun _ => [0%Q])
    [1%Q; 0%Q] (fun _ => [1%Q; 1%Q]) [] [1%Q; 0%Q; 0%Q] [0%Q].

(** ** Declared symbols *)

(** The method has parameters to declare. *)
Definition parametrised (k : method) : Prop :=
  (m_p (k_model k) <> [] \/ m_theta (k_model k) <> [] \/ k_x0_par k = true \/ o_last_u (k_problem k) <> None)%type.
(** Two points that agree on the decision variables and the declared parameters. *)
Definition same_declared (n : nlp) (env env' : sym -> Q) : Prop :=
  forall v, In v (nx n) \/ In v (np n) -> env v = env' v.
(** The problem asks that the initial value of some state is the given one. *)
Definition fixes_a_state (k : method) : Prop :=
  exists i x s, nth_error (m_x (k_model k)) i = Some x /\ nth_error (m_x_0 (k_model k)) i = Some s /\
    In (EBin OSub (EVar s) (EVar x)) (o_h_initial (k_problem k)).

(** A tank that is controlled and has no parameters, its initial condition not being one. *)
Definition closed_tank_history : list ocp_op :=
  [ PIncludeState [10] None (Some [1%Q]) BNone BNone None [12] false;
    PIncludeControl [30] (Some [Fin (-1)%Q]) (Some [Fin 1%Q]) None None None;
    PIncludeEquations [] (Some [EBin OSub (EVar 30) (EVar 10)]) (Some [10]) None ].
Definition closed_tank : res method :=
  match new_ocp (new_model 1 2) None 0%Q 10%Q with
  | Raise e => Raise e
  | Ok o =>
      match run_all (ocp_step (fun _ _ => false)) closed_tank_history o with
      | (_, Raise e) => Raise e
      | (o1, Ok _) =>
          match direct_prepare radau_two 1 60 61 70 o1 with
          | (_, Raise e) => Raise e
          | (o2, Ok _) => new_method o2 2 1 2 true false false false
          end
      end
  end.

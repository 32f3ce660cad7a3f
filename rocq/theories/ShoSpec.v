(** Specification vocabulary for the transcription by multiple shooting: the values of
    the decision variables, the simulations that connect them and what they have to
    satisfy. *)
From Coq Require Import String.
From Verif Require Import Base ExprModel NlpModel NlpSpec SysModel SysSpec SimModel OcpModel OcpSpec
  LagSpec DiscModel DiscSpec ColSpec ShoModel.
Local Open Scope list_scope.

(** The states at the beginning of every element and at the end of the last one, the
    algebraic variables at the end of every element, the control parameters of every
    element; parameters, element-wise parameters, free final variables, initial condition
    and last control applied before. *)
Record shooting := mkShooting
  { h_x : nat -> list Q; h_y : nat -> list Q; h_u : nat -> list Q; h_p : list Q;
    h_theta : nat -> list Q; h_eta : list Q; h_x0 : list Q; h_last_u : list Q }.

Section Shooting.
  Variables (F : nat -> Q -> Q) (integrate : icall -> res (list Q * list Q)) (defaults : options)
    (ty : string) (label : nat -> nat -> string) (k : method) (h : shooting).
  Let m : model := k_model k.
  Let o : ocp := k_problem k.
  Let K : nat := k_elements k.

  (** The elements have the same length; the time of the NLP starts at 0. *)
  Definition boundary (el : nat) : Q := (step_size k * inject_Z (Z.of_nat el))%Q.

  (** The system of the model during an element: the relative time is
      (t - start) / (end - start). *)
  Definition element_system (el : nat) : dae :=
    let tau := EBin ODiv (EBin OSub (EVar (m_t m)) (EConst (boundary el)))
                         (EConst (boundary (S el) - boundary el)%Q) in
    let during := map (fun e => substitute e [m_tau m] [tau]) in
    mkDae (map EVar (m_x m)) (map EVar (m_y m)) (map EVar (m_p m ++ m_theta m ++ m_u_par m))
          (during (ode m)) (during (match m_y m with [] => [] | _ => m_alg m end))
          (Some (m_t m)) (Some (m_tau m)).

  (** The simulation of an element: from its states, over its time, with its parameters
      and controls. *)
  Definition simulation (el : nat) : res (list Q * list Q) :=
    dae_simulate integrate defaults (element_system el) (h_x h el) (boundary (S el)) (boundary el)
      (h_p h ++ h_theta h el ++ h_u h el) (o_y_guess o) ty [("name"%string, OptStr (label el 0))].
  (** [ends el] are the final states and algebraic variables of the simulation. *)
  Definition simulated (ends : nat -> list Q * list Q) : Prop :=
    forall el, (el < K)%nat -> simulation el = Ok (ends el).

  (** The values of all symbols of the problem in element [el], at the given time. *)
  Definition point_of (el : nat) (t tau : Q) (x y : list Q) : sym -> Q :=
    assign (fun _ => 0%Q) (problem_symbols k)
      (t :: tau :: x ++ y ++ h_p h ++ h_theta h el ++ h_u h el ++ h_x0 h ++ h_eta h).
  Definition first_point : sym -> Q := point_of 0 0%Q 0%Q (h_x h 0) (h_y h 0).
  Definition last_point : sym -> Q := point_of (K - 1) (boundary K) 1%Q (h_x h K) (h_y h (K - 1)).
  Definition end_point (ends : nat -> list Q * list Q) (el : nat) : sym -> Q :=
    point_of el (boundary (S el)) 1%Q (fst (ends el)) (snd (ends el)).

  Definition all_zero (es : list expr) (env : sym -> Q) : Prop := forall e, In e es -> (eval F env e == 0)%Q.

  (** The states an element begins with, when the previous one ended with [x]: the same
      ones, except that a cost collected element by element restarts at 0. *)
  Definition continued (x : list Q) : list Q :=
    if (k_direct k && k_cost_as_sum k)%bool then removelast x ++ [0%Q] else x.

  Definition applied_before (el : nat) : list Q := match el with 0 => h_last_u h | S e => h_u h e end.
  Definition control_step (el i : nat) : Q := (nth i (h_u h el) 0 - nth i (applied_before el) 0)%Q.

  Record shot_through (ends : nat -> list Q * list Q) : Prop := mkShotThrough
    { sr_initial : all_zero (o_h_initial o) first_point;
      sr_joined : forall el, (el < K)%nat -> Forall2 Qeq (continued (fst (ends el))) (h_x h (S el));
      sr_algebraic : forall el, (el < K)%nat -> Forall2 Qeq (snd (ends el)) (h_y h el);
      sr_increments : forall el i lo hi, (el < K)%nat ->
        nth_error (o_du_min o) i = Some lo -> nth_error (o_du_max o) i = Some hi ->
        ext_le lo (Fin (control_step el i)) /\ ext_le (Fin (control_step el i)) hi;
      sr_inequalities : forall el g, (el < K)%nat -> In g (o_g_ineq o) -> (eval F (end_point ends el) g <= 0)%Q;
      sr_equalities : forall el g, (el < K)%nat -> In g (o_g_eq o) -> (eval F (end_point ends el) g == 0)%Q;
      sr_final : all_zero (o_h_final o) last_point;
      sr_independent : all_zero (o_h o) last_point }.

  (** Costs: at the final time, at the ends of the elements, and collected in the last
      state of every element. *)
  Definition running_cost (running : expr) (ends : nat -> list Q * list Q) : Q :=
    qsum (map (fun el => eval F (end_point ends el) running) (seq 0 K)).
  Definition collected_cost (ends : nat -> list Q * list Q) : Q :=
    qsum (map (fun el => last (fst (ends el)) 0%Q) (seq 0 K)).
End Shooting.

(** The values of the decision variables [r] and of the parameters [s] at the point [env]. *)
Record describes_shooting (k : method) (env : sym -> Q) (s : par_syms) (r : traj sym) (h : shooting) : Prop :=
  mkDescribesShooting
  { ds_x : forall el l, nth_error (r_x r) el = Some l -> h_x h el = map env (concat l);
    ds_y : forall el l, nth_error (r_y r) el = Some l -> h_y h el = map env (concat l);
    ds_u : forall el l, nth_error (r_u r) el = Some l -> h_u h el = map env (concat l);
    ds_p : chosen (m_p (k_model k)) (o_p_opt (k_problem k)) (map env (ps_p s)) (map env (r_p r)) (h_p h);
    ds_theta : forall el given decided, nth_error (ps_theta s) el = Some given ->
      nth_error (r_theta r) el = Some decided ->
      chosen (m_theta (k_model k)) (o_theta_opt (k_problem k)) (map env given) (map env decided) (h_theta h el);
    ds_eta : h_eta h = map env (r_eta r);
    ds_x0 : h_x0 h = map env (ps_x0 s);
    ds_last_u : h_last_u h = map env (ps_last_u s) }.

(** The symbols of the simulations have the values that the integrator returns. *)
Definition computed (F : nat -> Q -> Q) (integrate : icall -> res (list Q * list Q)) (defaults : options)
    (env : sym -> Q) (shots : list shot) : Prop :=
  Forall (fun sh =>
    dae_simulate integrate defaults (sh_dae sh) (map (eval F env) (sh_x0 sh)) (sh_tf sh) (sh_t0 sh)
      (map (eval F env) (sh_p sh)) (sh_y0 sh) (sh_type sh) (sh_user sh) =
    Ok (map env (sh_xf sh), map env (sh_zf sh))) shots.

(** Problems that can be transcribed. *)
Record shootable (k : method) : Prop := mkShootable
  { so_elements : k_elements k <> 0%nat;
    so_bounds : well_bounded (k_problem k);
    so_symbols : NoDup (problem_symbols k);
    so_own : optimises_own (k_problem k) /\ NoDup (o_p_opt (k_problem k)) /\ NoDup (o_theta_opt (k_problem k));
    so_algebraic : length (m_alg (k_model k)) = length (m_y (k_model k));
    so_initial : length (m_x_0 (k_model k)) = length (m_x (k_model k));
    so_controls : length (m_u_par (k_model k)) = (control_count k * length (m_u (k_model k)))%nat;
    so_indirect : k_direct k = false -> m_u_par (k_model k) = [] }.

(** Values of the right size. *)
Record sized_shooting (k : method) (h : shooting) (ends : nat -> list Q * list Q) : Prop := mkSizedShooting
  { ss_x : forall el, length (h_x h el) = length (m_x (k_model k));
    ss_y : forall el, length (h_y h el) = length (m_y (k_model k));
    ss_u : forall el, length (h_u h el) = length (m_u_par (k_model k));
    ss_p : length (h_p h) = length (m_p (k_model k));
    ss_theta : forall el, length (h_theta h el) = length (m_theta (k_model k));
    ss_eta : length (h_eta h) = length (o_eta (k_problem k));
    ss_x0 : length (h_x0 h) = length (m_x (k_model k));
    ss_last_u : length (h_last_u h) = if k_last_u_par k then length (m_u (k_model k)) else 0%nat;
    ss_ends : forall el, length (fst (ends el)) = length (m_x (k_model k)) /\
                         length (snd (ends el)) = length (m_y (k_model k)) }.

(** Number of constraints. *)
Definition shooting_constraints (k : method) : nat :=
  let m := k_model k in
  let o := k_problem k in
  length (o_h_initial o) +
  k_elements k * (length (m_x m) + length (m_y m) + bounded_increments o +
                  length (o_g_ineq o) + length (o_g_eq o)) +
  length (o_h_final o) + length (o_h o).

(** ** An example *)

(** An integrator for the cart at rest: nothing moves, and the algebraic variable is 2. *)
Definition resting (c : icall) : res (list Q * list Q) := Ok (ic_x0 c, [2%Q]).
(** The cart of the specification of collocation at rest in position 1. *)
Definition at_rest_shooting : shooting :=
  mkShooting (fun _ => [1%Q; 0%Q; 0%Q]) (fun _ => [2%Q]) (fun _ => [0%Q]) [1%Q; 0%Q] (fun _ => [1%Q; 1%Q]) []
    [1%Q; 0%Q; 0%Q] [0%Q].
Definition at_rest_ends (el : nat) : list Q * list Q := ([1%Q; 0%Q; 0%Q], [2%Q]).
(** The same cart with the cost collected element by element. *)
Definition summing (k : method) : method :=
  mkMethod (k_problem k) (k_degree k) (k_degree_control k) (k_elements k) (k_direct k) true
           (k_x0_par k) (k_last_u_par k).
(** The method with another final cost. *)
Definition with_final_cost (v : list expr) (k : method) : method :=
  mkMethod (set_o_V v (k_problem k)) (k_degree k) (k_degree_control k) (k_elements k) (k_direct k)
           (k_cost_as_sum k) (k_x0_par k) (k_last_u_par k).
(** Every integrator can be built, and all have the same name. *)
Definition any_integrator (name : optval) (plugin : string) (system : dict string (list expr))
    (opts : options) : bool := true.
Definition one_name (el i : nat) : string := "integrator"%string.
(** The method with its first inequality imposed at another time, and over another horizon. *)
Definition imposed_at (w : string) (k : method) : method :=
  mkMethod (set_o_when_ineq (w :: tl (o_when_ineq (k_problem k))) (k_problem k)) (k_degree k) (k_degree_control k)
           (k_elements k) (k_direct k) (k_cost_as_sum k) (k_x0_par k) (k_last_u_par k).
Definition lasting (t : Q) (k : method) : method :=
  mkMethod (set_o_t_f (o_t_0 (k_problem k) + t)%Q (k_problem k)) (k_degree k) (k_degree_control k)
           (k_elements k) (k_direct k) (k_cost_as_sum k) (k_x0_par k) (k_last_u_par k).

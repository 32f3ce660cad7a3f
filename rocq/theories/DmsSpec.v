(** Specification vocabulary for the direct method with multiple shooting: plans of the
    problem of the user, in which the states of every element are driven to those of the
    next one, and their cost. *)
From Coq Require Import String.
From Verif Require Import Base ExprModel NlpModel NlpSpec SysModel SysSpec SimModel OcpModel OcpSpec
  LagSpec DiscModel DiscSpec ColSpec DirSpec ShoModel ShoSpec.
Local Open Scope list_scope.

(** ** Solving differential equations *)

(** A function of the time, the states and the algebraic variables. *)
Definition vfield : Type := Q -> list Q -> list Q -> list Q.
(** [flow n_y f g x_0 t_0 t_f]: the states and the [n_y] algebraic variables at [t_f] of
    x' = f, 0 = g, from the states [x_0] at [t_0]. *)
Definition flow_of_fields : Type := nat -> vfield -> vfield -> list Q -> Q -> Q -> res (list Q * list Q).
(** [total n_y f g l x_0 t_0 t_f]: the integral of [l] along this solution. *)
Definition integral_along : Type := nat -> vfield -> vfield -> (Q -> list Q -> list Q -> Q) -> list Q -> Q -> Q -> Q.

(** The same numbers, or both fail. *)
Definition same_end (a b : res (list Q * list Q)) : Prop :=
  match a, b with
  | Ok (x, y), Ok (x', y') => Forall2 Qeq x x' /\ Forall2 Qeq y y'
  | Raise _, Raise _ => True
  | _, _ => False
  end.
(** The same values at the same arguments, for [n] states and [n_y] algebraic variables. *)
Definition same_field (n n_y : nat) (f f' : vfield) : Prop :=
  forall t t' x x' y y', (t == t')%Q -> Forall2 Qeq x x' -> Forall2 Qeq y y' ->
    length x = n -> length y = n_y -> Forall2 Qeq (f t x y) (f' t' x' y').
(** One value per state. *)
Definition square (n n_y : nat) (f : vfield) : Prop :=
  forall t x y, length x = n -> length y = n_y -> length (f t x y) = n.

(** A method for differential equations: its results depend on the values of the fields
    only, and with an integral as one more state, on which nothing depends, it gives the
    same solution and the integral.  This holds for the exact solution and for methods
    with fixed steps; with steps chosen from estimated errors, it holds up to the
    tolerance. *)
Record solution_method (flow : flow_of_fields) (total : integral_along) : Prop := mkSolutionMethod
  { sm_values : forall n_y f f' g g' x0 t_0 t_f, square (length x0) n_y f ->
      same_field (length x0) n_y f f' -> same_field (length x0) n_y g g' ->
      same_end (flow n_y f g x0 t_0 t_f) (flow n_y f' g' x0 t_0 t_f);
    sm_integral : forall n_y f g l x0 c0 t_0 t_f, square (length x0) n_y f ->
      same_end (flow n_y (fun t x y => f t (removelast x) y ++ [l t (removelast x) y])
                     (fun t x y => g t (removelast x) y) (x0 ++ [c0]) t_0 t_f)
               (match flow n_y f g x0 t_0 t_f with
                | Ok (x, y) => Ok (x ++ [(c0 + total n_y f g l x0 t_0 t_f)%Q], y)
                | Raise e => Raise e
                end) }.

(** The fields given by expressions in the time [t], the states [xs], the algebraic
    variables [ys] and parameters [ps] with the values [p]. *)
Definition field (F : nat -> Q -> Q) (t : sym) (xs ys ps : list sym) (p : list Q) (es : list expr) : vfield :=
  fun time x y => map (eval F (assign (fun _ => 0%Q) (t :: xs ++ ys ++ ps) (time :: x ++ y ++ p))) es.
Definition closed_in (l : list sym) (es : list expr) : Prop :=
  forall e s, In e es -> mentions e s -> In s l.

(** casadi: the integrators of this plugin, with the configured options [defaults] and the
    guess [z0] for the algebraic variables, are the solution method [flow]. *)
Definition integrates (F : nat -> Q -> Q) (integrate : icall -> res (list Q * list Q)) (defaults : options)
    (plugin : string) (z0 : option (list Q)) (flow : flow_of_fields) : Prop :=
  forall name t tau xs ys ps ode alg opts x0 p t_0 t_f,
    NoDup (t :: xs ++ ys ++ ps) -> closed_in (t :: xs ++ ys ++ ps) (ode ++ alg) ->
    length ode = length xs -> length alg = length ys -> length x0 = length xs -> length p = length ps ->
    dget String.eqb "t0"%string opts = Some (OptNum t_0) -> dget String.eqb "tf"%string opts = Some (OptNum t_f) ->
    (forall key, key <> "t0"%string -> key <> "tf"%string -> dget String.eqb key opts = dget String.eqb key defaults) ->
    integrate (mkIcall name plugin
                 (dae_system_dict (mkDae (map EVar xs) (map EVar ys) (map EVar ps) ode alg (Some t) (Some tau)))
                 opts x0 p z0) =
    flow (length ys) (field F t xs ys ps p ode) (field F t xs ys ps p alg) x0 t_0 t_f.

(** casadi: integrators are built only for systems without other symbols. *)
Definition refuses_free_symbols (buildable : optval -> string -> dict string (list expr) -> options -> bool) : Prop :=
  forall name plugin t tau xs ys ps ode alg opts,
    buildable name plugin
      (dae_system_dict (mkDae (map EVar xs) (map EVar ys) (map EVar ps) ode alg (Some t) (Some tau))) opts = true ->
    closed_in (t :: xs ++ ys ++ ps) (ode ++ alg).

(** The plugin for a type of integrator and a number of algebraic variables. *)
Definition plugin_of (ty : string) (n_y : nat) : string :=
  if String.eqb ty "explicit" then "rk"%string
  else if String.eqb ty "implicit" then match n_y with 0%nat => "cvodes"%string | _ => "idas"%string end
  else ty.

(** The guess for the algebraic variables that the simulations use. *)
Definition guess_of (k : method) : option (list Q) :=
  match m_y (k_model k) with [] => None | _ => o_y_guess (k_problem k) end.

(** ** Plans of the problem of the user *)

Section Plan.
  (** The problem, the number of elements, the states at the beginning of the elements and
      the other values [h], and the controls: one polynomial per element and component. *)
  Variables (F : nat -> Q -> Q) (flow : flow_of_fields) (total : integral_along) (o : ocp) (elements : nat)
    (h : shooting) (c : nat -> nat -> list Q).
  Let m : model := o_model o.

  Definition start (el : nat) : Q := (user_step o elements * inject_Z (Z.of_nat el))%Q.
  (** The states of the user at the beginning of an element. *)
  Definition state (el : nat) : list Q := firstn (length (m_x m)) (h_x h el).
  (** The values of all symbols in element [el] at time [t], relative time [tau]. *)
  Definition plan_point (el : nat) (t tau : Q) (x y : list Q) : sym -> Q :=
    assign (fun _ => 0%Q) (user_symbols o)
      (t :: tau :: x ++ y ++ map (fun i => poly (c el i) tau) (seq 0 (length (m_u m))) ++
       h_p h ++ h_theta h el ++ firstn (length (m_x m)) (h_x0 h) ++ h_eta h).
  (** The system of the user during an element. *)
  Definition moment (el : nat) (t : Q) (x y : list Q) : sym -> Q :=
    plan_point el t ((t - start el) / (start (S el) - start el))%Q x y.
  Definition rates (el : nat) : vfield :=
    fun t x y => map (eval F (moment el t x y))
                     (flat_map (fun se => match snd se with Some e => [e] | None => [] end) (m_ode m)).
  Definition residuals (el : nat) : vfield :=
    fun t x y => map (eval F (moment el t x y)) (match m_y m with [] => [] | _ => m_alg m end).
  (** Where the system of the user is driven to, and the running cost on the way. *)
  Definition driven (el : nat) : res (list Q * list Q) :=
    flow (length (m_y m)) (rates el) (residuals el) (state el) (start el) (start (S el)).
  Definition driven_to (ends : nat -> list Q * list Q) : Prop :=
    forall el, (el < elements)%nat -> driven el = Ok (ends el).
  Definition spent (running : expr) (el : nat) : Q :=
    total (length (m_y m)) (rates el) (residuals el) (fun t x y => eval F (moment el t x y) running)
          (state el) (start el) (start (S el)).

  Definition plan_start : sym -> Q := plan_point 0 0%Q 0%Q (state 0) (h_y h 0).
  Definition plan_end : sym -> Q := plan_point (elements - 1) (start elements) 1%Q (state elements) (h_y h (elements - 1)).
  Definition plan_arrival (ends : nat -> list Q * list Q) (el : nat) : sym -> Q :=
    plan_point el (start (S el)) 1%Q (fst (ends el)) (snd (ends el)).

  (** A plan that works: the system of the user, driven by the controls from the states of
      an element, reaches the states of the next one, and the constraints hold. *)
  Record works (ends : nat -> list Q * list Q) : Prop := mkWorks
    { wk_initial : all_zero F (o_h_initial o) plan_start;
      wk_joined : forall el, (el < elements)%nat -> Forall2 Qeq (fst (ends el)) (state (S el));
      wk_algebraic : forall el, (el < elements)%nat -> Forall2 Qeq (snd (ends el)) (h_y h el);
      wk_increments : forall el i lo hi, (el < elements)%nat ->
        nth_error (o_du_min o) i = Some lo -> nth_error (o_du_max o) i = Some hi ->
        ext_le lo (Fin (control_step h el i)) /\ ext_le (Fin (control_step h el i)) hi;
      wk_inequalities : forall el g, (el < elements)%nat -> In g (o_g_ineq o) -> (eval F (plan_arrival ends el) g <= 0)%Q;
      wk_equalities : forall el g, (el < elements)%nat -> In g (o_g_eq o) -> (eval F (plan_arrival ends el) g == 0)%Q;
      wk_final : all_zero F (o_h_final o) plan_end;
      wk_independent : all_zero F (o_h o) plan_end }.

  (** The cost state: component [n] of the states collects the running cost. *)
  Record collects (n : nat) (running : expr) : Prop := mkCollects
    { co_start : (nth n (h_x h 0) 0 == nth n (h_x0 h) 0)%Q;
      co_step : forall el, (el < elements)%nat ->
        (nth n (h_x h (S el)) 0 == nth n (h_x h el) 0 + spent running el)%Q }.

  (** What a plan costs the user: the final cost, the costs at the ends of the elements and
      the running cost. *)
  Definition plan_cost (final running at_ends : expr) (ends : nat -> list Q * list Q) : Q :=
    (eval F plan_end final +
     qsum (map (fun el => eval F (plan_arrival ends el) at_ends) (seq 0 elements)) +
     qsum (map (spent running) (seq 0 elements)))%Q.
End Plan.

(** On every element the controls follow the parameters. *)
Definition steers (o : ocp) (elements : nat) (upts : list Q) (h : shooting) (c : nat -> nat -> list Q) : Prop :=
  forall el, (el < elements)%nat -> through upts (length (m_u (o_model o))) (h_u h el) (c el).

(** The bounds of the user, where the transcription imposes them: states at the beginning
    of every element and at the end, algebraic variables at the ends of the elements,
    controls at the control points, and parameters that are decided. *)
Record plan_within (o : ocp) (elements : nat) (h : shooting) (c : nat -> nat -> list Q) (upts : list Q) : Prop :=
  mkPlanWithin
  { pw_x : forall el i a lo hi, (el <= elements)%nat -> (i < length (m_x (o_model o)))%nat ->
      nth_error (h_x h el) i = Some a -> nth_error (o_x_min o) i = Some lo -> nth_error (o_x_max o) i = Some hi ->
      ext_le lo (Fin a) /\ ext_le (Fin a) hi;
    pw_y : forall el i a lo hi, (el < elements)%nat ->
      nth_error (h_y h el) i = Some a -> nth_error (o_y_min o) i = Some lo -> nth_error (o_y_max o) i = Some hi ->
      ext_le lo (Fin a) /\ ext_le (Fin a) hi;
    pw_u : forall el tau i lo hi, (el < elements)%nat -> In tau upts -> (i < length (m_u (o_model o)))%nat ->
      nth_error (o_u_min o) i = Some lo -> nth_error (o_u_max o) i = Some hi ->
      ext_le lo (Fin (poly (c el i) tau)) /\ ext_le (Fin (poly (c el i) tau)) hi;
    pw_p : forall j i s a lo hi, nth_error (o_p_opt o) j = Some s -> nth_error (m_p (o_model o)) i = Some s ->
      nth_error (h_p h) i = Some a -> nth_error (o_p_min o) j = Some lo -> nth_error (o_p_max o) j = Some hi ->
      ext_le lo (Fin a) /\ ext_le (Fin a) hi;
    pw_theta : forall el j i s a lo hi, (el < elements)%nat ->
      nth_error (o_theta_opt o) j = Some s -> nth_error (m_theta (o_model o)) i = Some s ->
      nth_error (h_theta h el) i = Some a -> nth_error (o_th_min o) j = Some lo -> nth_error (o_th_max o) j = Some hi ->
      ext_le lo (Fin a) /\ ext_le (Fin a) hi }.

(** Plans with the same data: initial condition, last control and parameters that are not
    decided. *)
Record same_plan_data (o : ocp) (elements : nat) (h h' : shooting) : Prop := mkSamePlanData
  { sp_x0 : h_x0 h' = h_x0 h;
    sp_last_u : h_last_u h' = h_last_u h;
    sp_p : forall i s, nth_error (m_p (o_model o)) i = Some s -> ~ In s (o_p_opt o) ->
      nth_error (h_p h') i = nth_error (h_p h) i;
    sp_theta : forall el i s, (el < elements)%nat -> nth_error (m_theta (o_model o)) i = Some s ->
      ~ In s (o_theta_opt o) -> nth_error (h_theta h' el) i = nth_error (h_theta h el) i }.

(** Values of the right size. *)
Record sized_plan (k : method) (h : shooting) : Prop := mkSizedPlan
  { sz_x : forall el, length (h_x h el) = length (m_x (k_model k));
    sz_y : forall el, length (h_y h el) = length (m_y (k_model k));
    sz_u : forall el, length (h_u h el) = length (m_u_par (k_model k));
    sz_p : length (h_p h) = length (m_p (k_model k));
    sz_theta : forall el, length (h_theta h el) = length (m_theta (k_model k));
    sz_eta : length (h_eta h) = length (o_eta (k_problem k));
    sz_x0 : length (h_x0 h) = length (m_x (k_model k));
    sz_last_u : length (h_last_u h) = if k_last_u_par k then length (m_u (k_model k)) else 0%nat }.

(** The plan with [g] in the component [n] of the states. *)
Definition with_collected (h : shooting) (n : nat) (g : nat -> Q) : shooting :=
  mkShooting (fun el => firstn n (h_x h el) ++ [g el]) (h_y h) (h_u h) (h_p h) (h_theta h) (h_eta h) (h_x0 h) (h_last_u h).

(** The problem [o] of the user has been prepared for the method [k], which collects the
    cost over the whole horizon, and the nonlinear program [nl] created. *)
Record shooting_setting (buildable : optval -> string -> dict string (list expr) -> options -> bool)
    (label : nat -> nat -> string) (defaults : options) (ty : string) (points : nat -> list Q) (k : method) (c0 : sym)
    (nl : nlp) (s : par_syms) (r : traj sym) (shots : list shot) (o : ocp) (x_c x_c0 first : sym) : Prop := mkShootingSetting
  { hs_shootable : shootable k;
    hs_degree : (0 < k_degree_control k)%nat;
    hs_points : collocation_points (points (k_degree_control k)) (k_degree_control k);
    hs_prepared : direct_prepare points (k_degree_control k) x_c x_c0 first o = (k_problem k, Ok tt);
    hs_posed : posed o (x_c :: x_c0 :: m_u_par (k_model k));
    hs_created : create_optimization_problem (shooting_discretize buildable label defaults ty k) k c0 = Ok (nl, s, (r, shots));
    hs_direct : k_direct k = true /\ k_cost_as_sum k = false;
    hs_buildable : refuses_free_symbols buildable }.

(** ** Runge-Kutta methods *)

(** The stages of an explicit method (node and coefficients of the previous slopes), and
    the weights of the slopes. *)
Record tableau := mkTableau { tb_stages : list (Q * list Q); tb_weights : list Q }.
Definition moved (x : list Q) (dt : Q) (w : list Q) (slopes : list (list Q)) : list Q :=
  fold_left (fun acc ws => map (fun ab => (fst ab + dt * fst ws * snd ab)%Q) (combine acc (snd ws))) (combine w slopes) x.
Fixpoint stage_points (f : Q -> list Q -> list Q) (t dt : Q) (x : list Q) (stages : list (Q * list Q))
    (slopes : list (list Q)) : list (Q * list Q) :=
  match stages with
  | [] => []
  | (node, a) :: rest =>
      let p := ((t + node * dt)%Q, moved x dt a slopes) in
      p :: stage_points f t dt x rest (slopes ++ [f (fst p) (snd p)])
  end.
Definition rk_points (tb : tableau) (f : Q -> list Q -> list Q) (t dt : Q) (x : list Q) : list (Q * list Q) :=
  stage_points f t dt x (tb_stages tb) [].
Definition rk_step (tb : tableau) (f : Q -> list Q -> list Q) (t dt : Q) (x : list Q) : list Q :=
  moved x dt (tb_weights tb) (map (fun p => f (fst p) (snd p)) (rk_points tb f t dt x)).
Fixpoint rk_run (tb : tableau) (f : Q -> list Q -> list Q) (n : nat) (t dt : Q) (x : list Q) : list Q :=
  match n with 0%nat => x | S n => rk_run tb f n (t + dt)%Q dt (rk_step tb f t dt x) end.
(** The running cost with the same weights at the same points. *)
Fixpoint rk_sum (tb : tableau) (f : Q -> list Q -> list Q) (l : Q -> list Q -> Q) (n : nat) (t dt : Q) (x : list Q) : Q :=
  match n with
  | 0%nat => 0%Q
  | S n => (qsum (map (fun wp => dt * fst wp * l (fst (snd wp)) (snd (snd wp)))
                     (combine (tb_weights tb) (rk_points tb f t dt x))) +
            rk_sum tb f l n (t + dt) dt (rk_step tb f t dt x))%Q
  end.

(** [steps] steps of the same length, for systems without algebraic variables. *)
Definition rk_flow (tb : tableau) (steps : nat) : flow_of_fields :=
  fun n_y f g x0 t_0 t_f =>
    match n_y with
    | 0%nat => Ok (rk_run tb (fun t x => f t x []) steps t_0 ((t_f - t_0) / inject_Z (Z.of_nat steps))%Q x0, [])
    | _ => Raise CasadiError
    end.
Definition rk_total (tb : tableau) (steps : nat) : integral_along :=
  fun n_y f g l x0 t_0 t_f =>
    rk_sum tb (fun t x => f t x []) (fun t x => l t x []) steps t_0 ((t_f - t_0) / inject_Z (Z.of_nat steps))%Q x0.

(** The method of casadi's plugin "rk", and the explicit method of Euler. *)
Definition runge_kutta : tableau :=
  mkTableau [(0%Q, []); ((1 # 2)%Q, [(1 # 2)%Q]); ((1 # 2)%Q, [0%Q; (1 # 2)%Q]); (1%Q, [0%Q; 0%Q; 1%Q])]
            [(1 # 6)%Q; (1 # 3)%Q; (1 # 3)%Q; (1 # 6)%Q].
Definition euler : tableau := mkTableau [(0%Q, [])] [1%Q].

(** An integrator for such a method. *)
Definition names_of (es : option (list expr)) : list sym :=
  match es with Some l => flat_map (fun e => match e with EVar s => [s] | _ => [] end) l | None => [] end.
Definition rk_integrator (F : nat -> Q -> Q) (tb : tableau) (steps : nat) (call : icall) : res (list Q * list Q) :=
  let at_key key := dget String.eqb key (ic_dae call) in
  match names_of (at_key "t"%string), at_key "ode"%string, dget String.eqb "t0"%string (ic_opts call), dget String.eqb "tf"%string (ic_opts call) with
  | [t], Some ode, Some (OptNum t_0), Some (OptNum t_f) =>
      let ys := names_of (at_key "z"%string) in
      rk_flow tb steps (length ys)
        (field F t (names_of (at_key "x"%string)) ys (names_of (at_key "p"%string)) (ic_p call) ode) (fun _ _ _ => [])
        (ic_x0 call) t_0 t_f
  | _, _, _, _ => Raise CasadiError
  end.
(** Integrators are built for systems without other symbols. *)
Definition built_if_closed (name : optval) (plugin : string) (system : dict string (list expr)) (opts : options) : bool :=
  let at_key key := match dget String.eqb key system with Some l => l | None => [] end in
  let known := names_of (Some (at_key "t"%string ++ at_key "x"%string ++ at_key "z"%string ++ at_key "p"%string)) in
  forallb (fun e => forallb (fun s => memb Nat.eqb s known) (symbols e)) (at_key "ode"%string ++ at_key "alg"%string).

(** ** An example *)

(** The level of the specification of the direct method, held at 1. *)
Definition held_plan : shooting :=
  mkShooting (fun _ => [1%Q; 0%Q]) (fun _ => []) (fun _ => [0%Q]) [] (fun _ => []) [] [1%Q; 0%Q] [].
Definition no_inflow (el i : nat) : list Q := [0%Q].

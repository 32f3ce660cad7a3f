(** Specification vocabulary for initial guesses by simulation: a run of the simulation
    model through the elements, and the point it gives. *)
From Coq Require Import String.
From Verif Require Import Base ExprModel NlpModel NlpSpec SysModel SysSpec SimModel OcpModel OcpSpec
  DiscModel DiscSpec ColSpec ShoModel ShoSpec GueModel.
Local Open Scope list_scope.
Local Open Scope nat_scope.

(** What a function of the user, if there is one, makes of [a]. *)
Definition transformed {A : Type} (f : option (A -> res A)) (a b : A) : Prop :=
  match f with None => b = a | Some g => g a = Ok b end.

(** The system of a model between two times: the relative time is (t - a) / (b - a). *)
Definition system_during (m : model) (a b : Q) : dae :=
  let tau := EBin ODiv (EBin OSub (EVar (m_t m)) (EConst a)) (EConst (b - a)%Q) in
  let during := map (fun e => substitute e [m_tau m] [tau]) in
  mkDae (map EVar (m_x m)) (map EVar (m_y m)) (map EVar (m_p m ++ m_theta m ++ m_u_par m))
        (during (ode m)) (during (match m_y m with [] => [] | _ => m_alg m end))
        (Some (m_t m)) (Some (m_tau m)).

(** A simulation of the model [m] through [K] elements with [steps] simulations each. *)
Section Run.
  Variables (integrate : icall -> res (list Q * list Q)) (defaults : options)
    (before : option (sim_args -> res sim_args)) (after : option (list Q * list Q -> res (list Q * list Q)))
    (m : model) (p : list Q) (theta : nat -> list Q) (u : list Q) (y0 : option (list Q))
    (K steps : nat) (instant : nat -> nat -> Q).

  (** From the states [x] the simulation number [j] of element [el] gives [z]. *)
  Definition arrives (el j : nat) (x : list Q) (z : list Q * list Q) : Prop :=
    exists a w,
      transformed before (mkSimArgs x (instant el j) (instant el (S j)) (p ++ theta el ++ u) y0) a /\
      dae_simulate integrate defaults (system_during m (instant el 0) (instant el steps))
        (sa_x0 a) (sa_tf a) (sa_t0 a) (sa_p a) (sa_y0 a) "implicit" [] = Ok w /\
      transformed after w z.

  (** States at all instants and algebraic variables at the ends of the simulations. *)
  Record run (x0 : list Q) (x y : nat -> nat -> list Q) : Prop := mkRun
    { rn_first : 0 < K -> x 0 0 = x0;
      rn_next : forall el, S el < K -> x (S el) 0 = x el steps;
      rn_step : forall el j, el < K -> j < steps -> arrives el j (x el j) (x el (S j), y el j) }.
End Run.

(** The control of the guess: given, or the guess of the problem, or its last control, or
    zero. *)
Definition guessed_control (k : method) (given : option (list Q)) : list Q :=
  match given, o_u_guess (k_problem k), o_last_u (k_problem k) with
  | Some v, _, _ => v
  | None, Some v, _ => v
  | None, None, Some v => v
  | None, None, None => repeat 0%Q (n_u k)
  end.

(** The vectors [f el 0] to [f el (n - 1)] of all elements. *)
Definition table (K n : nat) (f : nat -> nat -> list Q) : list (list (list Q)) :=
  map (fun el => map (f el) (seq 0 n)) (seq 0 K).
Definition guess_point (k : method) (x y : list (list (list Q))) (u p : list Q) (theta : nat -> list Q) : traj Q :=
  mkTraj x y (repeat (repeat u (control_count k)) (k_elements k)) (repeat 0%Q (n_eta k))
    (map (value_in (m_p (k_model k)) p) (o_p_opt (k_problem k)))
    (map (fun el => map (value_in (m_theta (k_model k)) (theta el)) (o_theta_opt (k_problem k)))
         (seq 0 (k_elements k))).

(** The instants of collocation: the start of the element and its collocation points. *)
Definition collocation_instant (points : nat -> list Q) (k : method) (el j : nat) : Q :=
  (boundary k el + step_size k * nth j (0%Q :: points (k_degree k)) 0)%Q.
(** Those of multiple shooting: the ends of the element. *)
Definition shooting_instant (k : method) (el j : nat) : Q := boundary k (el + j).

(** Problems for which guesses have the right size: parameters are named once, and the
    initial condition, the guessed controls and the values given have the sizes of the problem. *)
Record guessable (k : method) (u : option (list Q)) (p : list Q) (theta : dict nat (list Q)) : Prop := mkGuessable
  { gb_own : optimises_own (k_problem k);
    gb_p_names : NoDup (m_p (k_model k));
    gb_theta_names : NoDup (m_theta (k_model k));
    gb_x0 : length (o_x_0 (k_problem k)) = n_x k;
    gb_u : length (guessed_control k u) = n_u k;
    gb_p : length p = n_p k;
    gb_theta : forall el v, el < k_elements k -> dget Nat.eqb el theta = Some v -> length v = n_theta k }.

(** The name of an integrator does not change what it computes. *)
Definition nameless (integrate : icall -> res (list Q * list Q)) : Prop :=
  forall c name, integrate (mkIcall name (ic_plugin c) (ic_dae c) (ic_opts c) (ic_x0 c) (ic_p c) (ic_z0 c)) = integrate c.

(** What multiple shooting demands besides the bounds and that the elements fit together. *)
Record remaining (F : nat -> Q -> Q) (k : method) (h : shooting) (ends : nat -> list Q * list Q) : Prop := mkRemaining
  { re_initial : all_zero F (o_h_initial (k_problem k)) (first_point k h);
    re_increments : forall el i lo hi, el < k_elements k ->
      nth_error (o_du_min (k_problem k)) i = Some lo -> nth_error (o_du_max (k_problem k)) i = Some hi ->
      ext_le lo (Fin (control_step h el i)) /\ ext_le (Fin (control_step h el i)) hi;
    re_inequalities : forall el g, el < k_elements k -> In g (o_g_ineq (k_problem k)) ->
      (eval F (end_point k h ends el) g <= 0)%Q;
    re_equalities : forall el g, el < k_elements k -> In g (o_g_eq (k_problem k)) ->
      (eval F (end_point k h ends el) g == 0)%Q;
    re_final : all_zero F (o_h_final (k_problem k)) (last_point k h);
    re_independent : all_zero F (o_h (k_problem k)) (last_point k h) }.

(** The initial conditions ask for nothing but the initial values of the states. *)
Definition starts_at_initial (k : method) : Prop :=
  forall F env e, In e (o_h_initial (k_problem k)) ->
    (forall i x s, nth_error (m_x (k_model k)) i = Some x -> nth_error (m_x_0 (k_model k)) i = Some s -> env x = env s) ->
    (eval F env e == 0)%Q.

(** ** An example *)

(** The method for a problem that remembers its last control. *)
Definition remembering (u : list Q) (k : method) : method :=
  mkMethod (set_o_last_u (Some u) (k_problem k)) (k_degree k) (k_degree_control k) (k_elements k) (k_direct k)
           (k_cost_as_sum k) (k_x0_par k) (k_last_u_par k).
(** An integrator under which the first state grows by one in every simulation. *)
Definition growing (c : icall) : res (list Q * list Q) :=
  match ic_x0 c with a :: l => Ok ((a + 1)%Q :: l, [2%Q]) | [] => Raise CasadiError end.
Definition cart_theta : dict nat (list Q) := [(0, [1%Q; 1%Q]); (1, [1%Q; 1%Q])].

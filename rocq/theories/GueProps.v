(** Properties of the initial guess by simulation. *)
From Coq Require Import String.
From Verif Require Import Base UtilModel ExprModel ExprProofs NlpModel NlpSpec SysModel SysSpec SimModel OcpModel OcpSpec
  DiscModel DiscSpec ColSpec ShoModel ShoSpec GueModel GueSpec GueProofs GueFeasProofs.
Local Open Scope list_scope.
Local Open Scope nat_scope.

(** With collocation the guess consists of a simulation that starts at the initial condition
    of the problem and goes from one collocation point to the next, through all elements, with
    the guessed control held in all of them, and of the parameters given; it has the layout
    of the decision variables. *)
Theorem C79_collocation : forall integrate defaults before after points k u p theta other g,
    length (points (k_degree k)) = k_degree k -> guessable k u p theta ->
    collocation_sim_guess integrate defaults before after points k u (Some p) (Some theta) other = Ok g ->
    let m := match other with Some m => m | None => k_model k end in
    let c := concat (repeat (guessed_control k u) (control_count k)) in
    let K := k_elements k in
    exists x y th,
      (forall el, el < K -> dget Nat.eqb el theta = Some (th el)) /\
      run integrate defaults before after m p th c (o_y_guess (k_problem k)) K (k_degree k) (collocation_instant points k)
        (o_x_0 (k_problem k)) x y /\
      let r := guess_point k (table K (k_degree k + 1) x) (table K (k_degree k) y) (guessed_control k u) p th in
      g = flatten r /\
      ((forall el j x' z, arrives integrate defaults before after m p th c (o_y_guess (k_problem k)) (k_degree k)
          (collocation_instant points k) el j x' z -> length (fst z) = n_x k /\ length (snd z) = n_y k) ->
       collocation_shape k r).
Proof. exact w_C79_collocation. Qed.
Print Assumptions C79_collocation.
Example C79_collocation_meets : exists k g,
    limited_cart = Ok k /\ guessable (remembering [0%Q] k) None [1%Q; 0%Q] cart_theta /\
    collocation_sim_guess growing [] None None radau_two (remembering [0%Q] k) None (Some [1%Q; 0%Q]) (Some cart_theta) None = Ok g /\
    g = ([1; 0; 0; 2; 0; 0; 3; 0; 0; 3; 0; 0; 4; 0; 0; 5; 0; 0] ++ [2; 2; 2; 2] ++ [0; 0] ++ [0; 1; 1])%Q.
Proof. exact w_cart_grows. Qed.

(** With multiple shooting there is one simulation per element, from its beginning to its
    end, and the states are those at the ends of the elements. *)
Theorem C79_shooting : forall integrate defaults before after k u p theta g,
    guessable k u p theta ->
    shooting_sim_guess integrate defaults before after k u (Some p) (Some theta) None = Ok g ->
    let c := concat (repeat (guessed_control k u) (control_count k)) in
    let K := k_elements k in
    exists x y th,
      (forall el, el < K -> dget Nat.eqb el theta = Some (th el)) /\
      run integrate defaults before after (k_model k) p th c (o_y_guess (k_problem k)) K 1 (shooting_instant k)
        (o_x_0 (k_problem k)) (fun el j => x (el + j)) (fun el _ => y el) /\
      let r := guess_point k (table (K + 1) 1 (fun el _ => x el)) (table K 1 (fun el _ => y el)) (guessed_control k u) p th in
      g = flatten r /\ x 0 = o_x_0 (k_problem k) /\
      ((forall el j x' z, arrives integrate defaults before after (k_model k) p th c (o_y_guess (k_problem k)) 1
          (shooting_instant k) el j x' z -> length (fst z) = n_x k /\ length (snd z) = n_y k) ->
       shooting_shape k r).
Proof. exact w_C79_shooting. Qed.
Print Assumptions C79_shooting.
Example C79_shooting_meets : exists k g,
    limited_cart = Ok k /\ guessable (remembering [0%Q] k) None [1%Q; 0%Q] cart_theta /\
    shooting_sim_guess growing [] None None (remembering [0%Q] k) None (Some [1%Q; 0%Q]) (Some cart_theta) None = Ok g /\
    g = ([1; 0; 0; 2; 0; 0; 3; 0; 0] ++ [2; 2] ++ [0; 0] ++ [0; 1; 1])%Q.
Proof. exact w_cart_shot_grows. Qed.

(** When multiple shooting starts at the simulated guess, with the parameter values the
    method passes to the solver, the elements fit together: only the bounds and the
    constraints of the user can be violated there, and the initial conditions are not if
    they only ask for the initial values. *)
Theorem C79_shooting_start : forall buildable label defaults integrate k c n s r shots p theta a g,
    shootable k -> k_cost_as_sum k = false -> k_x0_par k = true -> nameless integrate ->
    (forall call xf zf, integrate call = Ok (xf, zf) -> length xf = n_x k /\ length zf = n_y k) ->
    create_optimization_problem (shooting_discretize buildable label defaults "implicit" k) k c = Ok (n, s, (r, shots)) ->
    solver_guess (shooting_sim_guess integrate defaults None None k) (shooting_guess k) k "simulation" None None None p theta None = Ok (a, g) ->
    guessable k None (a_p a) (a_theta a) -> (forall lu, o_last_u (k_problem k) = Some lu -> length lu = n_u k) ->
    forall F env, respects F -> map env (nx n) = g -> map env (all_mx s) = a_par a ->
      computed F integrate defaults env shots ->
      exists h ends, describes_shooting k env s r h /\ simulated integrate defaults "implicit" label k h ends /\
        h_x h 0 = o_x_0 (k_problem k) /\
        (forall el, el < k_elements k -> h_x h (S el) = fst (ends el) /\ h_y h el = snd (ends el)) /\
        (starts_at_initial k -> all_zero F (o_h_initial (k_problem k)) (first_point k h)) /\
        (feasible F env n <-> bounded k env r /\ remaining F k h ends).
Proof. exact w_C79_shooting_start. Qed.
Print Assumptions C79_shooting_start.
Example C79_shooting_start_meets : exists k k0 n s r shots a g env,
    limited_cart = Ok k0 /\ k = remembering [0%Q] k0 /\ shootable k /\ k_cost_as_sum k = false /\ k_x0_par k = true /\
    nameless resting /\ starts_at_initial k /\
    create_optimization_problem (shooting_discretize any_integrator one_name [] "implicit" k) k 1000 = Ok (n, s, (r, shots)) /\
    solver_guess (shooting_sim_guess resting [] None None k) (shooting_guess k) k "simulation" None None None
      (Some [1%Q; 0%Q]) (Some cart_theta) None = Ok (a, g) /\
    guessable k None (a_p a) (a_theta a) /\ (forall lu, o_last_u (k_problem k) = Some lu -> length lu = n_u k) /\
    length g = 16 /\ map env (nx n) = g /\ map env (all_mx s) = a_par a /\ computed (fun _ x => x) resting [] env shots.
Proof. exact w_cart_started. Qed.

(** A guess given to solve is passed on as it is; without one, a choice that is neither
    "simulation" nor "problem_info" is refused. *)
Theorem C79_given : forall by_sim by_info k heuristic model g x_0 p theta last_u,
    solver_guess by_sim by_info k heuristic model (Some g) x_0 p theta last_u =
    match get_solver_call_args k x_0 p theta last_u with Ok a => Ok (a, g) | Raise e => Raise e end.
Proof. exact w_C79_given. Qed.
Print Assumptions C79_given.

Theorem C79_unknown : forall by_sim by_info k heuristic model x_0 p theta last_u a,
    heuristic <> "simulation"%string -> heuristic <> "problem_info"%string ->
    get_solver_call_args k x_0 p theta last_u = Ok a ->
    solver_guess by_sim by_info k heuristic model None x_0 p theta last_u = Raise ValueError.
Proof. exact w_C79_unknown. Qed.
Print Assumptions C79_unknown.
Example C79_unknown_meets : exists k a, limited_cart = Ok k /\
    get_solver_call_args (remembering [0%Q] k) None (Some [1%Q; 0%Q]) (Some cart_theta) None = Ok a /\
    "random"%string <> "simulation"%string /\ "random"%string <> "problem_info"%string.
Proof. exact w_cart_unknown. Qed.

(** The initial state and the last control given to solve do not change the guess: a
    simulated guess starts at the initial condition of the problem, not at the state given. *)
Theorem C79_given_state_refuted : forall by_sim by_info k heuristic model x x' p theta lu lu' a b g g',
    solver_guess by_sim by_info k heuristic model None x p theta lu = Ok (a, g) ->
    solver_guess by_sim by_info k heuristic model None x' p theta lu' = Ok (b, g') -> g = g'.
Proof. exact w_C79_given_state. Qed.
Print Assumptions C79_given_state_refuted.
Example C79_given_state_meets : exists k a b g, limited_cart = Ok k /\
    let k1 := remembering [0%Q] k in
    let solve x := solver_guess (shooting_sim_guess resting [] None None k1) (shooting_guess k1) k1 "simulation" None None
                     (Some x) (Some [1%Q; 0%Q]) (Some cart_theta) None in
    solve [1%Q; 0%Q; 0%Q] = Ok (a, g) /\ solve [7%Q; 0%Q; 0%Q] = Ok (b, g) /\ a_x0 b = [7%Q; 0%Q; 0%Q] /\ firstn 3 g = [1%Q; 0%Q; 0%Q].
Proof. exact w_cart_given_state. Qed.

(** The documentation says that theta may be left out, with zeros instead.  Without theta no
    guess is made. *)
Theorem C79_no_theta_refuted : forall integrate defaults before after points k u p other g, k_elements k <> 0 ->
    collocation_sim_guess integrate defaults before after points k u p None other <> Ok g /\
    shooting_sim_guess integrate defaults before after k u p None other <> Ok g.
Proof. exact w_C79_no_theta. Qed.
Print Assumptions C79_no_theta_refuted.
Example C79_no_theta_meets : exists k, limited_cart = Ok k /\ k_elements k = 2.
Proof. eexists. split; [vm_compute; reflexivity|]. reflexivity. Qed.

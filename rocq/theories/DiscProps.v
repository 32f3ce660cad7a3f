(** Properties of the time grid, of the layout of the decision variables and of the
    parameters of the NLP. *)
From Coq Require Import String Lqa.
From Verif Require Import Base BaseProofs UtilModel ExprModel NlpModel NlpSpec NlpProofs SysModel
  SysSpec SysProofs SimModel OcpModel OcpSpec OcpMoreProofs LagModel DiscModel DiscSpec DiscProofs.
Local Open Scope list_scope.
Local Open Scope nat_scope.

(** ** C37: time grid *)

(** With at least one element there are n+1 points, the multiples of (t_f-t_0)/n. *)
Theorem C37_grid :
  forall k l,
    breakpoints k = Ok l ->
    let n := k_elements k in
    let dt := ((o_t_f (k_problem k) - o_t_0 (k_problem k)) / q_of_nat n)%Q in
    n <> 0 /\ length l = n + 1 /\
    forall i, i <= n -> exists t, nth_error l i = Some t /\ (t == q_of_nat i * dt)%Q.
Proof. exact w_C37_grid. Qed.
Print Assumptions C37_grid.

Theorem C37_defined :
  forall k,
    (k_elements k <> 0 -> exists l, breakpoints k = Ok l) /\
    (k_elements k = 0 -> breakpoints k = Raise ZeroDivisionErr).
Proof. exact w_C37_defined. Qed.
Print Assumptions C37_defined.

(** The grid runs from 0 to t_f - t_0, and upwards. *)
Theorem C37_ends :
  forall k l,
    breakpoints k = Ok l ->
    (exists t, nth_error l 0 = Some t /\ t == 0)%Q /\
    (exists t, nth_error l (k_elements k) = Some t /\ t == o_t_f (k_problem k) - o_t_0 (k_problem k))%Q.
Proof. exact w_C37_ends. Qed.
Print Assumptions C37_ends.

Theorem C37_increasing :
  forall k l i t t',
    breakpoints k = Ok l -> (o_t_0 (k_problem k) < o_t_f (k_problem k))%Q ->
    nth_error l i = Some t -> nth_error l (S i) = Some t' -> (t < t')%Q.
Proof. exact grid_increasing. Qed.
Print Assumptions C37_increasing.

(** The interpolation times of an element lie between its ends. *)
Theorem C37_points_inside :
  forall k l dt taus e ts t a b,
    breakpoints k = Ok l -> delta_t k = Ok dt -> (o_t_0 (k_problem k) <= o_t_f (k_problem k))%Q ->
    Forall (fun tau => (0 <= tau <= 1)%Q) taus ->
    length (interpolation_times dt l taus) = k_elements k /\
    (nth_error (interpolation_times dt l taus) e = Some ts -> In t ts ->
     nth_error l e = Some a -> nth_error l (S e) = Some b -> (a <= t <= b)%Q).
Proof. exact points_inside. Qed.
Print Assumptions C37_points_inside.

(** Refuted: the grid covers the horizon of the problem.  When the horizon does not
    start at 0, neither its first nor its last point is an end of the grid. *)
Theorem C37_horizon_refuted :
  forall k l,
    breakpoints k = Ok l -> ~ (o_t_0 (k_problem k) == 0)%Q ->
    (forall t, nth_error l 0 = Some t -> ~ (t == o_t_0 (k_problem k))%Q) /\
    (forall t, nth_error l (k_elements k) = Some t -> ~ (t == o_t_f (k_problem k))%Q).
Proof. exact w_C37_horizon_refuted. Qed.
Print Assumptions C37_horizon_refuted.

(** Refuted: the grid follows the problem.  Once computed it is kept, whatever is
    changed afterwards. *)
Theorem C37_follows_changes_refuted :
  forall k k' s l,
    time_breakpoints (k, None) = (s, Ok l) ->
    breakpoints k = Ok l /\ time_breakpoints (k', snd s) = ((k', Some l), Ok l).
Proof. exact w_C37_follows_changes_refuted. Qed.
Print Assumptions C37_follows_changes_refuted.

Example C37_ex :
  exists k l, cart_method 2 4 = Ok k /\ breakpoints k = Ok l /\
    Forall2 Qeq l [0%Q; (5 # 2)%Q; 5%Q; (15 # 2)%Q; 10%Q] /\
    exists k', breakpoints k' = Ok [0%Q; 1%Q] /\ ~ (o_t_0 (k_problem k') == 0)%Q.
Proof.
  eexists. eexists. split; [vm_compute; reflexivity|]. split; [vm_compute; reflexivity|].
  split; [repeat constructor; reflexivity|].
  destruct (cart_method 2 4) as [k|e] eqn:E; [|discriminate].
  exists (mkMethod (set_o_t_0 1 (set_o_t_f 2 (k_problem k))) 2 1 1 true false true false).
  split; [reflexivity | discriminate].
Qed.

(** ** C38: collocation decision vector *)

(** The variables are created in one run of new symbols with the bounds of the
    problem, aligned entry by entry; nothing else of the NLP changes. *)
Theorem C38_variables :
  forall k s n,
    well_bounded (k_problem k) ->
    let ne := k_elements k in let nx := k_degree k + 1 in let ny := k_degree k in
    exists r,
      collocation_variables k (s, n) =
        ((mkNlp (NlpModel.nx s ++ flatten r)
                (nx_lb s ++ map BNum (flatten (lower_bounds k ne nx ny)))
                (nx_ub s ++ map BNum (flatten (upper_bounds k ne nx ny)))
                (ng s) (ng_lb s) (ng_ub s) (np s) (nf s) (nsolver s), n + collocation_size k), Ok r) /\
      collocation_shape k r /\ flatten r = seq n (collocation_size k).
Proof. exact w_C38_variables. Qed.
Print Assumptions C38_variables.

(** Variables, bounds and default guess have the same shape, hence the same length
    and the same places. *)
Theorem C38_same_shape :
  forall k,
    aligned (k_problem k) ->
    let ne := k_elements k in let nx := k_degree k + 1 in let ny := k_degree k in
    collocation_shape k (lower_bounds k ne nx ny) /\ collocation_shape k (upper_bounds k ne nx ny) /\
    collocation_shape k (default_guess k ne nx ny) /\
    collocation_guess k None None = Ok (flatten (default_guess k ne nx ny)).
Proof. exact w_C38_same_shape. Qed.
Print Assumptions C38_same_shape.

Theorem C38_length :
  forall (A : Type) k (r : traj A), collocation_shape k r -> length (flatten r) = collocation_size k.
Proof. exact w_C38_length. Qed.
Print Assumptions C38_length.

(** Every entry stands at its own place: state i at point j of element e at
    (e*(degree+1)+j)*n_x+i, and so on. *)
Theorem C38_places :
  forall (A : Type) k (r : traj A), collocation_shape k r -> collocation_places k (flatten r) r.
Proof. exact w_C38_places. Qed.
Print Assumptions C38_places.

(** Given parameter values, the guess of the optimised parameters is their value. *)
Theorem C38_guess_with_parameters :
  forall k p d theta,
    optimises_own (k_problem k) -> NoDup (m_p (k_model k)) -> NoDup (m_theta (k_model k)) ->
    length p = n_p k -> theta_table k d theta -> Forall (fun v => length v = n_theta k) theta ->
    collocation_guess k (Some p) (Some d) =
    Ok (flatten (guess_with k (k_elements k) (k_degree k + 1) (k_degree k) p theta)).
Proof. exact w_C38_guess_with_parameters. Qed.
Print Assumptions C38_guess_with_parameters.

(** Unpacking a packed trajectory gives it back, with the last state repeated. *)
Theorem C38_unpack_packed :
  forall (A : Type) k (r : traj A),
    k_elements k <> 0 -> collocation_shape k r ->
    collocation_unpack k (flatten r) = Ok (with_last_state r).
Proof. exact collocation_unpack_flatten. Qed.
Print Assumptions C38_unpack_packed.

(** Packing what was unpacked gives the vector back. *)
Theorem C38_repack_unpacked :
  forall (A : Type) k (v : list A) r,
    k_elements k <> 0 -> collocation_unpack k v = Ok r -> collocation_repack r = v.
Proof. exact collocation_roundtrip. Qed.
Print Assumptions C38_repack_unpacked.

(** Exactly the vectors of the right length are accepted. *)
Theorem C38_length_checked :
  forall (A : Type) k (v : list A),
    k_elements k <> 0 ->
    (length v = collocation_size k -> exists r, collocation_unpack k v = Ok r) /\
    (length v < collocation_size k -> collocation_unpack k v = Raise CasadiError) /\
    (length v > collocation_size k -> collocation_unpack k v = Raise AssertionError).
Proof. exact w_C38_length_checked. Qed.
Print Assumptions C38_length_checked.

(** Different trajectories give different vectors. *)
Theorem C38_injective :
  forall (A : Type) k (r r' : traj A),
    collocation_shape k r -> collocation_shape k r' -> flatten r = flatten r' -> r = r'.
Proof. exact w_C38_injective. Qed.
Print Assumptions C38_injective.

Example C38_ex :
  exists k s r, cart_method 2 3 = Ok k /\ well_bounded (k_problem k) /\
    collocation_variables k (nlp_init, 100) = (s, Ok r) /\
    r_x r = [[[100; 101]; [102; 103]; [104; 105]]; [[106; 107]; [108; 109]; [110; 111]];
             [[112; 113]; [114; 115]; [116; 117]]] /\ r_u r = [[[124]]; [[125]]; [[126]]] /\
    r_p r = [127] /\ r_theta r = [[128]; [129]; [130]] /\
    nth_error (nx_ub (fst s)) 5 = Some (BNum (Fin 5%Q)) /\
    collocation_unpack k (seq 100 31) = Ok (with_last_state r) /\
    collocation_unpack k (seq 100 30) = Raise CasadiError.
Proof.
  destruct (cart_method 2 3) as [k|e] eqn:E; [|discriminate].
  exists k. vm_compute in E. injection E as <-. eexists. eexists. split; [reflexivity|].
  split; [|split; [vm_compute; reflexivity|]].
  - split; [repeat split|]. repeat split; intros [|[|[|i]]] a b Ha Hb; vm_compute in Ha, Hb;
      try discriminate; injection Ha as <-; injection Hb as <-; vm_compute; try exact I; discriminate.
  - repeat split; vm_compute; reflexivity.
Qed.

(** ** C39: multiple shooting decision vector *)

Theorem C39_variables :
  forall k s n,
    well_bounded (k_problem k) ->
    let ne := k_elements k + 1 in
    exists r,
      shooting_variables k (s, n) =
        ((mkNlp (NlpModel.nx s ++ flatten r)
                (nx_lb s ++ map BNum (flatten (lower_bounds k ne 1 1)))
                (nx_ub s ++ map BNum (flatten (upper_bounds k ne 1 1)))
                (ng s) (ng_lb s) (ng_ub s) (np s) (nf s) (nsolver s), n + shooting_size k), Ok r) /\
      shooting_shape k r /\ flatten r = seq n (shooting_size k).
Proof. exact w_C39_variables. Qed.
Print Assumptions C39_variables.

Theorem C39_same_shape :
  forall k,
    aligned (k_problem k) ->
    let ne := k_elements k + 1 in
    shooting_shape k (lower_bounds k ne 1 1) /\ shooting_shape k (upper_bounds k ne 1 1) /\
    shooting_shape k (default_guess k ne 1 1) /\
    shooting_guess k None None = Ok (flatten (default_guess k ne 1 1)).
Proof. exact w_C39_same_shape. Qed.
Print Assumptions C39_same_shape.

Theorem C39_length :
  forall (A : Type) k (r : traj A), shooting_shape k r -> length (flatten r) = shooting_size k.
Proof. exact w_C39_length. Qed.
Print Assumptions C39_length.

Theorem C39_places :
  forall (A : Type) k (r : traj A), shooting_shape k r -> shooting_places k (flatten r) r.
Proof. exact w_C39_places. Qed.
Print Assumptions C39_places.

(** Unpacking reads every block at its own place: it inverts packing both ways. *)
Theorem C39_unpack_packed :
  forall (A : Type) k (r : traj A), shooting_shape k r -> shooting_unpack k (flatten r) = Ok r.
Proof. exact shooting_unpack_flatten. Qed.
Print Assumptions C39_unpack_packed.

Theorem C39_unpacked :
  forall (A : Type) k (v : list A) r,
    shooting_unpack k v = Ok r -> shooting_shape k r /\ flatten r = v.
Proof. exact shooting_roundtrip. Qed.
Print Assumptions C39_unpacked.

Theorem C39_length_checked :
  forall (A : Type) k (v : list A),
    (length v = shooting_size k -> exists r, shooting_unpack k v = Ok r) /\
    (length v < shooting_size k -> shooting_unpack k v = Raise CasadiError) /\
    (length v > shooting_size k -> shooting_unpack k v = Raise AssertionError).
Proof. exact w_C39_length_checked. Qed.
Print Assumptions C39_length_checked.

Example C39_ex :
  exists k r, cart_method 2 3 = Ok k /\ shooting_unpack k (seq 0 18) = Ok r /\
    r_x r = [[[0; 1]]; [[2; 3]]; [[4; 5]]; [[6; 7]]] /\ r_y r = [[[8]]; [[9]]; [[10]]] /\
    r_u r = [[[11]]; [[12]]; [[13]]] /\ r_p r = [14] /\ r_theta r = [[15]; [16]; [17]] /\
    exists g, shooting_guess k None None = Ok g /\ Forall2 Qeq g (map inject_Z [1; 0; 1; 0; 1; 0; 1; 0; 0; 0; 0; 0; 0; 0; 0; 0; 0; 0]%Z).
Proof.
  eexists. eexists. split; [vm_compute; reflexivity|]. split; [vm_compute; reflexivity|].
  do 5 (split; [reflexivity|]). eexists. split; [vm_compute; reflexivity|]. repeat constructor.
Qed.

(** ** C40: parameters *)

(** A new method keeps its problem and the options; the last control is a parameter if
    that is asked for or the problem has a last control.  Bounds on the rates of the
    controls are refused unless the controls are constant on the elements, and nothing
    else is. *)
Theorem C40_new_method :
  forall o degree degree_control elements direct sum x0_par last_u_par, OcpSpec.aligned o ->
    let created := new_method o degree degree_control elements direct sum x0_par last_u_par in
    (1 < degree_control -> rate_bounded o -> created = Raise AnyException) /\
    (degree_control <= 1 \/ ~ rate_bounded o ->
     exists k, created = Ok k /\ k_problem k = o /\ k_degree k = degree /\ k_degree_control k = degree_control /\
       k_elements k = elements /\ k_direct k = direct /\ k_cost_as_sum k = sum /\ k_x0_par k = x0_par /\
       (k_last_u_par k = true <-> last_u_par = true \/ o_last_u o <> None)).
Proof. exact w_C40_new_method. Qed.
Print Assumptions C40_new_method.

(** The parameter symbols are distinct. *)
Theorem C40_symbols :
  forall k c,
    NoDup (all_mx (parameter_symbols k c)) /\
    length (all_mx (parameter_symbols k c)) =
      n_p k + n_theta k * k_elements k + n_x k + (if k_last_u_par k then n_u k else 0).
Proof. exact w_C40_symbols. Qed.
Print Assumptions C40_symbols.

(** With the initial condition as a parameter and the last control taken from the
    problem, the vector passed has the declared length, and whoever gives the
    declared symbols these values gives p to p, each theta to its element, the
    initial state to the initial state and the last control to the last control. *)
Theorem C40_parameters_reach_their_place :
  forall k c x_0 p theta last_u a,
    get_solver_call_args k x_0 p theta last_u = Ok a ->
    k_x0_par k = true -> (k_last_u_par k = true -> last_u = None) ->
    length (a_p a) = n_p k ->
    (forall el v, el < k_elements k -> dget Nat.eqb el (a_theta a) = Some v -> length v = n_theta k) ->
    (forall lu, o_last_u (k_problem k) = Some lu -> length lu = n_u k) ->
    exists ths lu, theta_table k (a_theta a) ths /\
      (k_last_u_par k = true -> a_last_u a = Some lu /\ o_last_u (k_problem k) = Some lu) /\
      (k_last_u_par k = false -> lu = []) /\
      length (a_par a) = length (all_mx (parameter_symbols k c)) /\
      forall env, map env (all_mx (parameter_symbols k c)) = a_par a ->
        reads env (parameter_symbols k c) (mkParValues (a_p a) ths (a_x0 a) lu).
Proof. exact call_args_read. Qed.
Print Assumptions C40_parameters_reach_their_place.

(** What was given is what is used; the initial state defaults to the problem's. *)
Theorem C40_given_values :
  forall k x_0 p theta last_u a,
    get_solver_call_args k x_0 p theta last_u = Ok a ->
    length (a_x0 a) = n_x k /\
    a_x0 a = match x_0 with Some v => v | None => o_x_0 (k_problem k) end /\
    (forall v, p = Some v -> a_p a = v) /\ (forall d, theta = Some d -> a_theta a = d) /\
    (p = None -> a_p a = repeat 0%Q (n_p k)) /\
    (theta = None -> forall el, el < k_elements k ->
       dget Nat.eqb el (a_theta a) = Some (repeat 0%Q (n_theta k))).
Proof. exact call_args_given. Qed.
Print Assumptions C40_given_values.

(** An initial state of the wrong size is refused, a missing p or theta too, unless
    all of it is optimised. *)
Theorem C40_refused :
  forall k x_0 p theta last_u,
    (length (match x_0 with Some v => v | None => o_x_0 (k_problem k) end) <> n_x k ->
     get_solver_call_args k x_0 p theta last_u = Raise AnyException) /\
    (length (match x_0 with Some v => v | None => o_x_0 (k_problem k) end) = n_x k ->
     p = None -> n_p k <> 0 -> n_p_opt k <> n_p k ->
     get_solver_call_args k x_0 p theta last_u = Raise ValueError) /\
    (length (match x_0 with Some v => v | None => o_x_0 (k_problem k) end) = n_x k ->
     p <> None -> theta = None -> n_theta k <> 0 -> n_theta_opt k <> n_theta k ->
     get_solver_call_args k x_0 p theta last_u = Raise AnyException).
Proof. exact call_args_refused. Qed.
Print Assumptions C40_refused.

(** Refuted: a last control can be passed when solving.  With the last control as a
    parameter the vector is then too short by its size. *)
Theorem C40_explicit_last_control_refuted :
  forall k c x_0 p theta lu a,
    get_solver_call_args k x_0 p theta (Some lu) = Ok a ->
    k_last_u_par k = true -> n_u k <> 0 -> length (a_p a) = n_p k ->
    (forall el v, el < k_elements k -> dget Nat.eqb el (a_theta a) = Some v -> length v = n_theta k) ->
    (forall lu, o_last_u (k_problem k) = Some lu -> length lu = n_u k) ->
    length (a_par a) < length (all_mx (parameter_symbols k c)).
Proof. exact w_C40_explicit_last_control_refuted. Qed.
Print Assumptions C40_explicit_last_control_refuted.

(** Refuted: the initial condition can be left out of the parameters.  For a model
    with states the vector is then always too short. *)
Theorem C40_no_initial_condition_refuted :
  forall k c x_0 p theta last_u a,
    get_solver_call_args k x_0 p theta last_u = Ok a ->
    k_x0_par k = false -> n_x k <> 0 -> length (a_p a) = n_p k ->
    (forall el v, el < k_elements k -> dget Nat.eqb el (a_theta a) = Some v -> length v = n_theta k) ->
    (forall lu, o_last_u (k_problem k) = Some lu -> length lu = n_u k) ->
    length (a_par a) < length (all_mx (parameter_symbols k c)).
Proof. exact w_C40_no_initial_condition_refuted. Qed.
Print Assumptions C40_no_initial_condition_refuted.

(** Refuted: sizes of p and theta are checked.  A p that is one too long and a theta
    that is one too short make a vector of the right length, and the last entry of p
    is read as the first theta. *)
Theorem C40_sizes_checked_refuted :
  exists k c p theta a,
    cart_method 2 1 = Ok k /\ get_solver_call_args k None (Some p) (Some theta) None = Ok a /\
    length p <> n_p k /\ length (a_par a) = length (all_mx (parameter_symbols k c)) /\
    forall env, map env (all_mx (parameter_symbols k c)) = a_par a ->
      map env (concat (ps_theta (parameter_symbols k c))) = last p 0%Q :: concat (map snd theta).
Proof. exact w_C40_sizes_checked_refuted. Qed.
Print Assumptions C40_sizes_checked_refuted.

Example C40_ex :
  exists k a, cart_method 2 2 = Ok k /\
    get_solver_call_args k (Some [7%Q; 8%Q]) (Some [1%Q; 2%Q]) (Some [(0, [3%Q; 4%Q]); (1, [5%Q; 6%Q])]) None = Ok a /\
    k_x0_par k = true /\ k_last_u_par k = false /\ n_p k = 2 /\ n_theta k = 2 /\
    a_par a = [1%Q; 2%Q; 3%Q; 4%Q; 5%Q; 6%Q; 7%Q; 8%Q].
Proof. eexists. eexists. split; [vm_compute; reflexivity|]. repeat split; vm_compute; reflexivity. Qed.

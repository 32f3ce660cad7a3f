(** Property theorems C24-C29 and C60-C63: optimal control problems. *)
From Coq Require Import String.
From Verif Require Import Base BaseProofs UtilModel ExprModel NlpModel SysModel SysSpec SysProofs SysCtlProofs SimModel OcpModel OcpSpec OcpProofs OcpMoreProofs.
Local Open Scope list_scope.

(** ** C24 *)

(** After any successful history every vector fits its variables, and what each
    variable is bounded by is what the calls say. *)
Theorem C24_bounds_follow_variables :
  forall same ops o o',
    aligned o -> admissible_history (tables_of o) ops ->
    run_all (ocp_step same) ops o = (o', Ok tt) ->
    aligned o' /\ tables_of o' = fold_left (fun t op => table_effect op t) ops (tables_of o).
Proof. exact history_tables. Qed.
Print Assumptions C24_bounds_follow_variables.

(** In particular the entries of a variable stay until a call takes it away. *)
Theorem C24_entries_stay :
  forall same ops o o',
    aligned o -> admissible_history (tables_of o) ops ->
    run_all (ocp_step same) ops o = (o', Ok tt) ->
    let t := tables_of o in
    let t' := tables_of o' in
    (forall r, In r (t_x t) -> In r (t_x t')) /\
    (forall r, In r (t_p t) -> In r (t_p t')) /\
    (forall r, In r (t_th t) -> In r (t_th t')) /\
    (forall c r, In (c, r) (t_u t) -> (forall op, In op ops -> ~ drops_control c op) -> In (c, r) (t_u t')) /\
    (forall c r, In (c, r) (t_y t) -> (forall op, In op ops -> ~ drops_algebraic c op) -> In (c, r) (t_y t')).
Proof. exact w_C24_entries_stay. Qed.
Print Assumptions C24_entries_stay.

(** A new problem is aligned as soon as its initial state has one entry per state. *)
Theorem C24_new_problem :
  forall m x_0 t_0 t_f o,
    new_ocp m x_0 t_0 t_f = Ok o ->
    (aligned o <-> length (match x_0 with Some v => v | None => [] end) = length (m_x m)) /\
    o_model o = m /\
    (forall lo, In lo (o_x_min o) -> lo = NInf) /\ (forall hi, In hi (o_x_max o) -> hi = PInf) /\
    map fst (t_y (tables_of o)) = m_y m /\
    (forall c lo hi, In (c, (lo, hi)) (t_y (tables_of o)) -> lo = NInf /\ hi = PInf) /\
    map fst (t_u (tables_of o)) = m_u m /\
    (forall c lo hi dlo dhi, In (c, (lo, hi, (dlo, dhi))) (t_u (tables_of o)) ->
       lo = NInf /\ hi = PInf /\ dlo = NInf /\ dhi = PInf) /\
    t_p (tables_of o) = [] /\ t_th (tables_of o) = [] /\ t_yg (tables_of o) = None /\ t_ug (tables_of o) = None.
Proof. exact w_C24_new_problem. Qed.
Print Assumptions C24_new_problem.

(** Refuted: state bounds given as a list are the bounds of the states.  A list of two
    is read as the shape of a zero matrix. *)
Theorem C24_state_bound_lists_refuted :
  exists o o', reachable o /\ aligned o /\
    ocp_include_state [10; 11] None (Some [0; 0]%Q) (BList [Fin 2; Fin 1]%Q) BNone None [12; 13] false o
      = (o', Ok tt) /\
    o_x_min o = [] /\ o_x_min o' = [Fin 0; Fin 0]%Q.
Proof. exact w_C24_state_bound_lists_refuted. Qed.
Print Assumptions C24_state_bound_lists_refuted.

(** Refuted: the initial equation of the user is kept.  It is dropped when an initial
    value is given too. *)
Theorem C24_initial_equation_kept_refuted :
  exists o o', reachable o /\
    ocp_include_state [10] None (Some [0%Q]) BNone BNone (Some [EBin OSub (EVar 10) (EConst 5)]) [11] false o
      = (o', Ok tt) /\
    ~ In (EBin OSub (EVar 10) (EConst 5)) (o_h_initial o').
Proof. exact w_C24_initial_equation_kept_refuted. Qed.
Print Assumptions C24_initial_equation_kept_refuted.

(** Refuted: an algebraic guess is kept.  It is dropped while the problem has none,
    even when there was no algebraic variable before. *)
Theorem C24_algebraic_guess_kept_refuted :
  exists o o', reachable o /\ m_y (o_model o) = [] /\
    ocp_include_algebraic [20] None None None (Some [7%Q]) o = (o', Ok tt) /\ o_y_guess o' = None.
Proof. exact w_C24_algebraic_guess_kept_refuted. Qed.
Print Assumptions C24_algebraic_guess_kept_refuted.

Example C24_ex :
  let ops := [PIncludeControl [30; 31] (Some [Fin 0]%Q) None None (Some [Fin 3; Fin 4]%Q) (Some [1; 2]%Q);
              PIncludeState [10] (Some [EVar 30]) (Some [5]%Q) (BVec [Fin (-1)]%Q) BNone None [11] false;
              PIncludeAlgebraic [20] (Some [EBin OSub (EVar 20) (EVar 10)]) None None None;
              PConnect [31] [EVar 20] false; PCreateCostState 12 13;
              PIncludePOpt [40] (Some [Fin 0]%Q) None] in
  exists o o', new_ocp (new_model 1 2) None 0%Q 10%Q = Ok o /\ aligned o /\
    admissible_history (tables_of o) ops /\
    run_all (ocp_step (fun _ _ => false)) ops o = (o', Ok tt) /\
    t_y (tables_of o') = [(20, (NInf, PInf)); (31, (Fin 0%Q, PInf))] /\
    t_u (tables_of o') = [(30, (Fin 0%Q, PInf, (NInf, Fin 3%Q)))] /\
    t_x (tables_of o') = [(10, (Fin (-1)%Q, PInf, 5%Q)); (12, (NInf, PInf, 0%Q))] /\
    t_ug (tables_of o') = Some [(30, 1%Q)].
Proof.
  cbv zeta. eexists; eexists. split; [vm_compute; reflexivity|]. split; [vm_compute; tauto|].
  split.
  - cbn [admissible_history admissible table_effect].
    split; [exact I|]. split; [split; exact I|]. split; [exact I|]. split.
    + split; [|intros H; exfalso; apply H; reflexivity]. intros c [<-|[]]. vm_compute. reflexivity.
    + repeat split.
  - split; [vm_compute; reflexivity|]. repeat split; vm_compute; reflexivity.
Qed.

(** ** C25 *)

(** A state is accepted only with bounds and initial values of its size; otherwise
    nothing happens.  (Lists of bounds: see C24.) *)
Theorem C25_state_sizes :
  forall var ode x_0 lo hi h s b o,
    short_list lo -> short_list hi ->
    ~ (if_given (has_size (length var)) (bound_given lo) /\ if_given (has_size (length var)) (bound_given hi) /\
       if_given (has_size (length var)) x_0) ->
    exists e, ocp_include_state var ode x_0 lo hi h s b o = (o, Raise e).
Proof. exact w_C25_state_sizes. Qed.
Print Assumptions C25_state_sizes.

Theorem C25_initial_condition_required :
  forall var ode lo hi s o,
    ocp_include_state var ode None lo hi None s false o = (o, Raise AnyException).
Proof. exact w_C25_initial_condition_required. Qed.
Print Assumptions C25_initial_condition_required.

Theorem C25_algebraic_sizes :
  forall var alg lo hi g o,
    ~ (if_given (has_size (length var)) lo /\ if_given (has_size (length var)) hi) ->
    ocp_include_algebraic var alg lo hi g o = (o, Raise ValueError).
Proof. exact w_C25_algebraic_sizes. Qed.
Print Assumptions C25_algebraic_sizes.

(** A control is accepted exactly when all sizes fit and a guess is given if the
    problem has guesses; otherwise ValueError and nothing changes. *)
Theorem C25_control_sizes :
  forall var lo hi dlo dhi g o,
    let n := length var in
    let fits := if_given (control_size n) lo /\ if_given (control_size n) hi /\
                if_given (control_size n) dlo /\ if_given (control_size n) dhi /\
                if_given (has_size n) g /\ (o_u_guess o <> None -> g <> None) in
    (fits -> exists o', ocp_include_control var lo hi dlo dhi g o = (o', Ok tt)) /\
    (~ fits -> ocp_include_control var lo hi dlo dhi g o = (o, Raise ValueError)).
Proof. exact w_C25_control_sizes. Qed.
Print Assumptions C25_control_sizes.

Theorem C25_parameter_sizes :
  forall new lo hi o,
    ~ (if_given (has_size (length new)) lo /\ if_given (has_size (length new)) hi) ->
    set_p_opt new lo hi o = (o, Raise ValueError) /\ set_th_opt new lo hi o = (o, Raise ValueError).
Proof. exact w_C25_parameter_sizes. Qed.
Print Assumptions C25_parameter_sizes.

(** Refuted: the same for equations.  With too many differential equations the state
    stays in the model without bounds. *)
Theorem C25_equation_sizes_atomic_refuted :
  exists o, reachable o /\ aligned o /\
    let r := ocp_include_state [10] (Some [EConst 1; EConst 2]%Q) (Some [0%Q]) BNone BNone None [11] false o in
    (exists e, snd r = Raise e) /\ m_x (o_model (fst r)) = [10] /\ o_x_min (fst r) = [] /\ ~ aligned (fst r).
Proof. exact w_C25_equation_sizes_atomic_refuted. Qed.
Print Assumptions C25_equation_sizes_atomic_refuted.

(** Refuted: a state included twice is refused without effect. *)
Theorem C25_duplicate_state_atomic_refuted :
  exists o, reachable o /\ aligned o /\
    let r := ocp_include_state [10] None (Some [0%Q]) BNone BNone None [12] false o in
    snd r = Raise ValueError /\ m_x (o_model (fst r)) = [10; 10] /\ ~ aligned (fst r).
Proof. exact w_C25_duplicate_state_atomic_refuted. Qed.
Print Assumptions C25_duplicate_state_atomic_refuted.

(** Refuted: the size of an algebraic guess, and the number of algebraic equations, are
    checked. *)
Theorem C25_algebraic_guess_size_refuted :
  exists o o', reachable o /\ aligned o /\
    ocp_include_algebraic [20] (Some [EVar 20; EVar 21]) None None (Some [1; 2; 3]%Q) o = (o', Ok tt) /\
    ~ guess_fits (o_y_guess o') (length (m_y (o_model o'))) /\
    length (m_alg (o_model o')) = 2%nat /\ m_y (o_model o') = [20].
Proof. exact w_C25_algebraic_guess_size_refuted. Qed.
Print Assumptions C25_algebraic_guess_size_refuted.

(** Refuted: a refused optimised parameter leaves the problem unchanged.  It stays a
    parameter of the model. *)
Theorem C25_parameter_atomic_refuted :
  exists o, reachable o /\
    let r := include_p_opt [40] (Some []) None o in
    snd r = Raise ValueError /\ m_p (o_model o) = [] /\ m_p (o_model (fst r)) = [40] /\ o_p_opt (fst r) = [].
Proof. exact w_C25_parameter_atomic_refuted. Qed.
Print Assumptions C25_parameter_atomic_refuted.

(** Refuted: a refused removal leaves the problem unchanged.  The bounds are gone
    while the variable stays. *)
Theorem C25_failed_removal_atomic_refuted :
  exists o, reachable o /\ aligned o /\
    let r := ocp_remove_control [30] o in
    snd r = Raise ValueError /\ o_u_min o = [NInf] /\ o_u_min (fst r) = [].
Proof. exact w_C25_failed_removal_atomic_refuted. Qed.
Print Assumptions C25_failed_removal_atomic_refuted.

Example C25_ex :
  exists o, reachable o /\
    ocp_include_control [30; 31] (Some [Fin 1; Fin 2; Fin 3]%Q) None None None None o = (o, Raise ValueError) /\
    snd (ocp_include_control [30; 31] (Some [Fin 1; Fin 2]%Q) (Some [Fin 5]%Q) None None None o) = Ok tt.
Proof.
  eexists. split; [exists (fun _ _ => false), 1%nat, 2%nat, 0%Q, 10%Q, []; eexists; split; vm_compute; reflexivity|].
  split; vm_compute; reflexivity.
Qed.

(** ** C26 *)

(** A merge succeeds only between problems of one horizon and appends everything, in
    the order of the problems. *)
Theorem C26_appended :
  forall ps o o',
    ocp_merge ps o = (o', Ok tt) ->
    Forall (same_horizon o) ps /\ o_t_0 o' = o_t_0 o /\ o_t_f o' = o_t_f o /\
    o_eta o' = o_eta o ++ flat_map o_eta ps /\ o_p_opt o' = o_p_opt o ++ flat_map o_p_opt ps /\
    o_theta_opt o' = o_theta_opt o ++ flat_map o_theta_opt ps /\ o_x_0 o' = o_x_0 o ++ flat_map o_x_0 ps /\
    o_h o' = o_h o ++ flat_map o_h ps /\ o_h_initial o' = o_h_initial o ++ flat_map o_h_initial ps /\
    o_h_final o' = o_h_final o ++ flat_map o_h_final ps /\
    o_g_eq o' = o_g_eq o ++ flat_map o_g_eq ps /\ o_g_ineq o' = o_g_ineq o ++ flat_map o_g_ineq ps /\
    o_when_eq o' = o_when_eq o ++ flat_map o_when_eq ps /\
    o_when_ineq o' = o_when_ineq o ++ flat_map o_when_ineq ps /\
    m_x (o_model o') = m_x (o_model o) ++ flat_map (fun q => m_x (o_model q)) ps /\
    m_y (o_model o') = m_y (o_model o) ++ flat_map (fun q => m_y (o_model q)) ps /\
    m_u (o_model o') = m_u (o_model o) ++ flat_map (fun q => m_u (o_model q)) ps.
Proof. exact merge_all_appended. Qed.
Print Assumptions C26_appended.

(** Bounds, initial values and guesses stay with their variables. *)
Theorem C26_bounds :
  forall ps o o',
    aligned o -> Forall aligned ps -> ocp_merge ps o = (o', Ok tt) ->
    aligned o' /\
    tables_of o' = fold_left (fun t q => tables_append t (tables_of q)) ps (tables_of o).
Proof. exact w_C26_bounds. Qed.
Print Assumptions C26_bounds.

(** The running, final and special costs are the sums of the costs. *)
Theorem C26_costs :
  forall ps o o' l ls,
    ocp_merge ps o = (o', Ok tt) ->
    (o_L o = [l] -> Forall2 (fun q c => o_L q = [c]) ps ls ->
       exists e, o_L o' = [e] /\
         forall F env, (eval F env e == eval F env l + qsum (map (eval F env) ls))%Q) /\
    (o_V o = [l] -> Forall2 (fun q c => o_V q = [c]) ps ls ->
       exists e, o_V o' = [e] /\
         forall F env, (eval F env e == eval F env l + qsum (map (eval F env) ls))%Q) /\
    (o_S o = [l] -> Forall2 (fun q c => o_S q = [c]) ps ls ->
       exists e, o_S o' = [e] /\
         forall F env, (eval F env e == eval F env l + qsum (map (eval F env) ls))%Q).
Proof. exact w_C26_costs. Qed.
Print Assumptions C26_costs.

(** A problem of another horizon is refused and not merged, but those before it are. *)
Theorem C26_other_horizon_refused :
  forall ps q rest o o1,
    ocp_merge ps o = (o1, Ok tt) -> ~ same_horizon o q ->
    ocp_merge (ps ++ q :: rest) o = (o1, Raise ValueError).
Proof. exact w_C26_other_horizon_refused. Qed.
Print Assumptions C26_other_horizon_refused.

(** Refuted: merging a problem without algebraic variables keeps the guess. *)
Theorem C26_guess_kept_refuted :
  exists o q o', aligned o /\ aligned q /\ reachable q /\ m_u (o_model q) = [] /\
    ocp_merge [q] o = (o', Ok tt) /\ o_u_guess o = Some [1%Q] /\ o_u_guess o' = None.
Proof. exact w_C26_guess_kept_refuted. Qed.
Print Assumptions C26_guess_kept_refuted.

(** Refuted: the merged problem uses one time symbol.  Costs and constraints of the
    other problem keep its own, which is no symbol of the merged model. *)
Theorem C26_one_time_refuted :
  exists o q o', reachable o /\ reachable q /\ ocp_merge [q] o = (o', Ok tt) /\
    m_t (o_model o') = 1%nat /\ m_t (o_model q) = 5%nat /\
    (exists e, In e (o_g_ineq o') /\ mentions e 5) /\
    (forall e, In e (ode (o_model o')) -> ~ mentions e 5) /\ ~ In 5%nat (all_sym (o_model o')).
Proof. exact w_C26_one_time_refuted. Qed.
Print Assumptions C26_one_time_refuted.

Example C26_ex :
  exists o q o', reachable o /\ reachable q /\ aligned o /\ aligned q /\ ocp_merge [q] o = (o', Ok tt) /\
    t_x (tables_of o') = [(10, (NInf, PInf, 1%Q)); (20, (Fin 0%Q, PInf, 2%Q))] /\
    o_g_ineq o' = [EVar 20].
Proof.
  eexists. eexists. eexists.
  split; [exists (fun _ _ => false), 1%nat, 2%nat, 0%Q, 10%Q,
    [PIncludeState [10] (Some [EVar 10]) (Some [1%Q]) BNone BNone None [11] false]; eexists; split; vm_compute; reflexivity|].
  split; [exists (fun _ _ => false), 5%nat, 6%nat, 0%Q, 10%Q,
    [PIncludeState [20] (Some [EVar 20]) (Some [2%Q]) (BVec [Fin 0%Q]) BNone None [21] false;
     PTimeInequality [EVar 20] "end"]; eexists; split; vm_compute; reflexivity|].
  split; [vm_compute; tauto|]. split; [vm_compute; tauto|].
  split; [vm_compute; reflexivity|]. split; vm_compute; reflexivity.
Qed.

(** ** C27 *)

(** Each connected control becomes an algebraic variable with the bounds it had; all
    other entries stay, in order. *)
Theorem C27_bounds_move :
  forall u y o o',
    aligned o -> (forall c, In c u -> length (rows_of [c] (t_u (tables_of o))) = 1%nat) ->
    (o_y_guess o <> None -> o_u_guess o <> None) ->
    ocp_connect u y false o = (o', Ok tt) ->
    let t := tables_of o in
    let t' := tables_of o' in
    aligned o' /\
    (forall c lo hi d, In c u -> In (c, (lo, hi, d)) (t_u t) -> In (c, (lo, hi)) (t_y t')) /\
    (forall c, In c u -> ~ In c (m_u (o_model o'))) /\
    (exists rows, t_y t' = t_y t ++ rows /\ map fst rows = u) /\
    t_u t' = rows_except u (t_u t) /\ t_x t' = t_x t /\ t_p t' = t_p t /\ t_th t' = t_th t /\
    problem_expressions o' = problem_expressions o.
Proof. exact w_C27_bounds_move. Qed.
Print Assumptions C27_bounds_move.

(** Connecting succeeds whenever the controls are free. *)
Theorem C27_succeeds :
  forall u y r o,
    aligned o -> length (m_u_expr (o_model o)) = length (m_u (o_model o)) ->
    length u = length y -> (exists c, In c u /\ In c (m_u (o_model o))) ->
    (exists c, In c u /\ In c (m_u_par (o_model o))) ->
    snd (ocp_connect u y r o) = Ok tt.
Proof. exact connect_total. Qed.
Print Assumptions C27_succeeds.

(** Refuted: the guesses stay consistent too. *)
Theorem C27_guess_consistent_refuted :
  exists o o', reachable o /\ aligned o /\ ocp_connect [30] [EVar 20] false o = (o', Ok tt) /\
    ~ guess_fits (o_y_guess o') (length (m_y (o_model o'))).
Proof. exact w_C27_guess_consistent_refuted. Qed.
Print Assumptions C27_guess_consistent_refuted.

(** Refuted: only controls can be connected.  A symbol that is no control, listed with
    one, becomes an algebraic variable without bounds. *)
Theorem C27_only_controls_refuted :
  exists o o', reachable o /\ aligned o /\ ocp_connect [30; 99] [EVar 20; EVar 20] false o = (o', Ok tt) /\
    length (o_y_min o') <> length (m_y (o_model o')) /\ ~ In 99 (m_u (o_model o)).
Proof. exact w_C27_only_controls_refuted. Qed.
Print Assumptions C27_only_controls_refuted.

(** Refuted: connecting with replacement keeps the problem meaningful.  Costs and
    constraints still mention the control, which is no longer a variable, and its
    bounds are gone. *)
Theorem C27_replace_keeps_meaning_refuted :
  exists o o', reachable o /\ aligned o /\ ocp_connect [30] [EVar 20] true o = (o', Ok tt) /\
    (exists e, In e (o_g_ineq o') /\ mentions e 30) /\ ~ In 30 (all_sym (o_model o')) /\
    o_u_max o = [Fin 5%Q] /\ o_u_max o' = [] /\ o_y_max o' = [PInf].
Proof. exact w_C27_replace_keeps_meaning_refuted. Qed.
Print Assumptions C27_replace_keeps_meaning_refuted.

Example C27_ex :
  exists o o', reachable o /\ aligned o /\
    (forall c, In c [31] -> length (rows_of [c] (t_u (tables_of o))) = 1%nat) /\
    (o_y_guess o <> None -> o_u_guess o <> None) /\
    ocp_connect [31] [EVar 20] false o = (o', Ok tt) /\
    t_y (tables_of o') = [(20, (NInf, PInf)); (31, (Fin 1%Q, Fin 2%Q))] /\
    map fst (t_u (tables_of o')) = [30; 32].
Proof.
  eexists. eexists. split.
  { exists (fun _ _ => false), 1%nat, 2%nat, 0%Q, 10%Q,
      [PIncludeAlgebraic [20] None None None None;
       PIncludeControl [30; 31; 32] (Some [Fin 0; Fin 1; Fin 2]%Q) (Some [Fin 2]%Q) None None None]; eexists.
    split; vm_compute; reflexivity. }
  split; [vm_compute; tauto|]. split; [intros c [<-|[]]; vm_compute; reflexivity|].
  split; [intros H; exfalso; apply H; reflexivity|]. split; [vm_compute; reflexivity|].
  split; vm_compute; reflexivity.
Qed.

(** ** C28 *)

Theorem C28_accepts_exactly :
  forall o, (pre_solve_check o = Ok tt <-> ready_to_solve o) /\
            (~ ready_to_solve o -> pre_solve_check o = Raise AnyException).
Proof. exact check_exact. Qed.
Print Assumptions C28_accepts_exactly.

(** Problems with scalar costs built from aligned ones pass the check. *)
Theorem C28_histories_pass :
  forall same ops o o',
    aligned o -> admissible_history (tables_of o) ops ->
    run_all (ocp_step same) ops o = (o', Ok tt) ->
    length (o_L o') = 1%nat -> length (o_V o') = 1%nat -> pre_solve_check o' = Ok tt.
Proof. exact w_C28_histories_pass. Qed.
Print Assumptions C28_histories_pass.

(** Refuted: the check also covers the guesses and the special cost. *)
Theorem C28_guesses_checked_refuted :
  exists o, pre_solve_check o = Ok tt /\ ~ guess_fits (o_y_guess o) (length (m_y (o_model o))) /\
    ~ guess_fits (o_u_guess o) (length (m_u (o_model o))) /\ length (o_S o) = 2%nat.
Proof. exact w_C28_guesses_checked_refuted. Qed.
Print Assumptions C28_guesses_checked_refuted.

Example C28_ex :
  exists o, reachable o /\ pre_solve_check o = Ok tt /\
    pre_solve_check (set_o_x_min [] o) = Raise AnyException /\ m_x (o_model o) = [10].
Proof.
  eexists. split.
  { exists (fun _ _ => false), 1%nat, 2%nat, 0%Q, 10%Q,
      [PIncludeState [10] (Some [EVar 10]) (Some [1%Q]) BNone BNone None [11] false]; eexists; split; vm_compute; reflexivity. }
  repeat split; vm_compute; reflexivity.
Qed.

(** ** C29 *)

(** Time points of a simulation over n elements. *)
Theorem C29_grid :
  forall integrate defaults F o x_0 t_f q t_0 n u p theta y_0 ty user s,
    (t_f = TNum q \/ (t_f = TNone /\ q = o_t_f o)) ->
    ocp_simulate integrate defaults F o x_0 t_f t_0 (Some n) u p theta y_0 ty user = Ok s ->
    let start := match t_0 with Some t => t | None => o_t_0 o end in
    let delta_t := ((q - start) / inject_Z (Z.of_nat n))%Q in
    (1 < n)%nat /\
    map fst (s_x s) = o_t_0 o :: map (fun k => (delta_t * inject_Z (Z.of_nat k))%Q) (seq 1 (n - 1)) /\
    map fst (s_y s) = map (fun k => (delta_t * inject_Z (Z.of_nat k))%Q) (seq 1 (n - 1)) /\
    map fst (s_u s) = map (fun k => (delta_t * inject_Z (Z.of_nat k))%Q) (seq 1 (n - 1)) /\
    nth_error (s_x s) 0 = Some (o_t_0 o, match x_0 with Some v => v | None => o_x_0 o end).
Proof. exact grid_times. Qed.
Print Assumptions C29_grid.

(** Without a number of elements the end times are those given. *)
Theorem C29_given_times :
  forall integrate defaults F o x_0 t_f t_0 u p theta y_0 ty user s,
    ocp_simulate integrate defaults F o x_0 t_f t_0 None u p theta y_0 ty user = Ok s ->
    map fst (s_x s) = o_t_0 o :: match t_f with TNone => [o_t_f o] | TNum q => [q] | TList l => l end.
Proof. exact given_times. Qed.
Print Assumptions C29_given_times.

(** What is left out is taken from the problem. *)
Theorem C29_defaults :
  forall integrate defaults F o x_0 t_f t_0 n u p theta y_0 ty user,
    let go := ocp_simulate integrate defaults F o in
    go None t_f t_0 n u p theta y_0 ty user = go (Some (o_x_0 o)) t_f t_0 n u p theta y_0 ty user /\
    go x_0 TNone t_0 n u p theta y_0 ty user = go x_0 (TNum (o_t_f o)) t_0 n u p theta y_0 ty user /\
    go x_0 t_f None n u p theta y_0 ty user = go x_0 t_f (Some (o_t_0 o)) n u p theta y_0 ty user /\
    (forall g, o_u_guess o = Some g ->
       go x_0 t_f t_0 n UNone p theta y_0 ty user = go x_0 t_f t_0 n (UVec g) p theta y_0 ty user) /\
    (forall g, o_y_guess o = Some g ->
       go x_0 t_f t_0 n u p theta None ty user = go x_0 t_f t_0 n u p theta (Some g) ty user) /\
    go x_0 t_f t_0 n u p theta y_0 None user = go x_0 t_f t_0 n u p theta y_0 (Some "implicit"%string) user.
Proof. exact simulate_defaults. Qed.
Print Assumptions C29_defaults.

(** Refuted: the simulation reaches the final time; it never does for problems that
    start at zero. *)
Theorem C29_final_time_refuted :
  forall integrate defaults F o x_0 q n u p theta y_0 ty user s,
    (o_t_0 o == 0)%Q -> (0 < q)%Q ->
    ocp_simulate integrate defaults F o x_0 (TNum q) None (Some n) u p theta y_0 ty user = Ok s ->
    forall t, In t (map fst (s_x s)) -> (t < q)%Q.
Proof. exact final_time_missing. Qed.
Print Assumptions C29_final_time_refuted.

(** Refuted: one element can be simulated. *)
Theorem C29_one_element_refuted :
  forall integrate defaults F o x_0 t_f q t_0 u p theta y_0 ty user,
    (t_f = TNum q \/ t_f = TNone) ->
    exists e, ocp_simulate integrate defaults F o x_0 t_f t_0 (Some 1) u p theta y_0 ty user = Raise e.
Proof. exact one_element_fails. Qed.
Print Assumptions C29_one_element_refuted.

(** Refuted: the times lie within the horizon.  From 10 to 20 in two elements the
    model is simulated from 10 to 5. *)
Theorem C29_times_in_horizon_refuted :
  exists integrate defaults F o s,
    o_t_0 o = 10%Q /\ o_t_f o = 20%Q /\ pre_solve_check o = Ok tt /\
    ocp_simulate integrate defaults F o None TNone None (Some 2) UNone [] None None None [] = Ok s /\
    exists t, map fst (s_x s) = [10%Q; t] /\ (t == 5)%Q.
Proof. exact w_C29_times_in_horizon_refuted. Qed.
Print Assumptions C29_times_in_horizon_refuted.

Example C29_ex :
  exists integrate defaults F o s,
    o_t_0 o = 0%Q /\ pre_solve_check o = Ok tt /\
    ocp_simulate integrate defaults F o None TNone None (Some 4) UNone [] None None None [] = Ok s /\
    length (s_x s) = 4%nat.
Proof.
  exists (fun c => Ok ([1%Q], [])), [], (fun _ q => q).
  exists (fst (run_all (ocp_step (fun _ _ => false))
    [PIncludeState [10] (Some [EVar 10]) (Some [1%Q]) BNone BNone None [11] false]
    (match new_ocp (new_model 1 2) None 0%Q 20%Q with Ok o => o | Raise _ => mkOcp 0 0 [] (new_model 1 2) [] [] [] [] [] [] [] [] [] [] [] [] [] [] [] [] [] [] [] [] [] [] [] [] [] None None None false None end))).
  eexists. split; [reflexivity|]. split; [vm_compute; reflexivity|].
  split; [vm_compute; reflexivity|]. reflexivity.
Qed.


(** ** C60 *)

(** The reported positions are those of the optimised parameters, in their order. *)
Theorem C60_positions :
  forall o,
    optimises_own o -> NoDup (m_p (o_model o)) -> NoDup (m_theta (o_model o)) ->
    map (nth_error (m_p (o_model o))) (get_p_opt_indices o) = map Some (o_p_opt o) /\
    map (nth_error (m_theta (o_model o))) (get_theta_opt_indices o) = map Some (o_theta_opt o).
Proof. exact w_C60_positions. Qed.
Print Assumptions C60_positions.

(** Along any history that only chooses parameters of the model. *)
Theorem C60_histories :
  forall same ops o o',
    optimises_own o -> own_choices same ops o -> run_all (ocp_step same) ops o = (o', Ok tt) ->
    optimises_own o'.
Proof. exact own_history. Qed.
Print Assumptions C60_histories.

(** Refuted: only parameters of the model can be chosen.  A symbol that is none is
    accepted; it counts as an optimised parameter, but has no position. *)
Theorem C60_foreign_refused_refuted :
  exists o o', reachable o /\ set_p_opt [77] None None o = (o', Ok tt) /\
    ~ In 77 (m_p (o_model o)) /\ o_p_opt o' = [77] /\ get_p_opt_indices o' = [] /\
    pre_solve_check o' = Ok tt.
Proof. exact w_C60_foreign_refused_refuted. Qed.
Print Assumptions C60_foreign_refused_refuted.

Example C60_ex :
  exists o0 o ops, new_ocp (new_model 1 2) None 0%Q 10%Q = Ok o0 /\ optimises_own o0 /\
    own_choices (fun _ _ => false) ops o0 /\ run_all (ocp_step (fun _ _ => false)) ops o0 = (o, Ok tt) /\
    m_p (o_model o) = [40; 41; 42] /\ get_p_opt_indices o = [2; 0].
Proof.
  eexists. eexists. exists [PIncludeParameter [40; 41]; PIncludePOpt [42] None None; PSetPOpt [40] None (Some [Fin 1%Q])].
  split; [vm_compute; reflexivity|]. split; [split; intros a []|].
  split; [cbn [own_choices own_choice]; repeat split; vm_compute; intros a [<-|[]]; tauto|].
  repeat split; vm_compute; reflexivity.
Qed.

(** ** C61 *)

Theorem C61_detects_rate_bounds :
  forall o, aligned o -> exists b, has_delta_u o = Ok b /\ (b = true <-> rate_bounded o).
Proof. exact has_delta_u_spec. Qed.
Print Assumptions C61_detects_rate_bounds.

Example C61_ex :
  exists o, reachable o /\ aligned o /\ has_delta_u o = Ok true /\
    has_delta_u (fst (ocp_remove_control [31] o)) = Ok false.
Proof.
  eexists. split.
  { exists (fun _ _ => false), 1%nat, 2%nat, 0%Q, 10%Q,
      [PIncludeControl [30] None None None None None; PIncludeControl [31] None None None (Some [Fin 1%Q]) None]; eexists.
    split; vm_compute; reflexivity. }
  split; [vm_compute; tauto|]. split; vm_compute; reflexivity.
Qed.

(** ** C62 *)

(** After a replacement every cost, constraint and equation has, at any point, the
    value of the old one where the original takes the value of the replacement. *)
Theorem C62_replacement :
  forall F env original replacement o o',
    ocp_replace_variable original replacement o = (o', Ok tt) ->
    length original = length replacement /\
    problem_evaluates_as F env (assign env original (map (eval F env) replacement)) o o'.
Proof. exact ocp_replace_evaluates. Qed.
Print Assumptions C62_replacement.

(** Likewise for a parametrisation whose expression does not mention the controls. *)
Theorem C62_parametrisation :
  forall F env u e u_par o o',
    ocp_parametrize_control u e u_par o = (o', Ok tt) ->
    (forall ex c, In ex e -> In c u -> ~ mentions ex c) ->
    problem_evaluates_as F env (assign env u (map (eval F env) e)) o o'.
Proof. exact ocp_parametrize_evaluates. Qed.
Print Assumptions C62_parametrisation.

(** Otherwise the equations of the model are rewritten twice, the rest once. *)
Theorem C62_parametrisation_general :
  forall F env u e u_par o o',
    ocp_parametrize_control u e u_par o = (o', Ok tt) ->
    let once := assign env u (map (eval F env) e) in
    Forall2 (Forall2 (evaluates_as F env once)) (problem_expressions o) (problem_expressions o') /\
    model_evaluates_as F env (assign once u (map (eval F once) e)) (o_model o) (o_model o').
Proof. exact ocp_parametrize_twice. Qed.
Print Assumptions C62_parametrisation_general.

(** Refuted: cost and model always see the same control.  With u := u + 1 the cost
    reads u + 1, the differential equation u + 2. *)
Theorem C62_consistent_refuted :
  exists o o', reachable o /\ ocp_parametrize_control [30] [EBin OAdd (EVar 30) (EConst 1%Q)] None o = (o', Ok tt) /\
    o_g_ineq o = [EVar 30] /\ ode (o_model o) = [EVar 30] /\
    (forall F env, map (eval F env) (o_g_ineq o') = [env 30%nat + 1]%Q /\
                   map (eval F env) (ode (o_model o')) = [env 30%nat + 1 + 1]%Q).
Proof. exact w_C62_consistent_refuted. Qed.
Print Assumptions C62_consistent_refuted.

Example C62_ex :
  exists o o', reachable o /\ ocp_parametrize_control [30] [EBin OMul (EVar 50) (EVar 10)] (Some [50]) o = (o', Ok tt) /\
    (forall ex c, In ex [EBin OMul (EVar 50) (EVar 10)] -> In c [30] -> ~ mentions ex c) /\
    ode (o_model o') = [EBin OMul (EVar 50) (EVar 10)].
Proof.
  eexists. eexists. split.
  { exists (fun _ _ => false), 1%nat, 2%nat, 0%Q, 10%Q,
      [PIncludeControl [30] None None None None None;
       PIncludeState [10] (Some [EVar 30]) (Some [1%Q]) BNone BNone None [11] false]; eexists.
    split; vm_compute; reflexivity. }
  split; [vm_compute; reflexivity|]. split; [|vm_compute; reflexivity].
  intros ex c [<-|[]] [<-|[]]. unfold mentions. simpl. intros [H|[H|[]]]; discriminate.
Qed.


(** ** C63 *)

(** The running and final costs are the weighted squares of the deviations from the
    references.  The fourth weight applies to the final state, not to the control. *)
Theorem C63_value :
  forall F env o x_ref u_ref Wq Wr Wqv Wrv,
    let x := m_x (o_model o) in
    let u := m_u (o_model o) in
    if_given (fun r : list Q => length r = length x \/ length r = 1%nat) x_ref ->
    if_given (fun r : list Q => length r = length u \/ length r = 1%nat) u_ref ->
    if_given (fun W => weights_fit W (length x)) Wq -> if_given (fun W => weights_fit W (length u)) Wr ->
    if_given (fun W => weights_fit W (length x)) Wqv -> if_given (fun W => weights_fit W (length x)) Wrv ->
    exists l v o', create_quadratic_cost x_ref u_ref Wq Wr Wqv Wrv o = (o', Ok tt) /\
      o' = set_o_V [v] (set_o_L [l] o) /\
      (eval F env l == optional_value Wq (deviation (map env x) x_ref) + optional_value Wr (deviation (map env u) u_ref))%Q /\
      (eval F env v == optional_value Wqv (deviation (map env x) x_ref) + optional_value Wrv (map env x))%Q.
Proof. exact quadratic_cost_value. Qed.
Print Assumptions C63_value.

Example C63_ex :
  exists o, reachable o /\ m_x (o_model o) = [10; 12] /\
    if_given (fun r : list Q => length r = length (m_x (o_model o)) \/ length r = 1%nat) (Some [1; 2]%Q) /\
    if_given (fun W => weights_fit W (length (m_x (o_model o)))) (Some [[1; 3]; [0; 2]]%Q) /\
    exists l, o_L (fst (create_quadratic_cost (Some [1; 2]%Q) None (Some [[1; 3]; [0; 2]]%Q) None None None o)) = [l] /\
    (eval (fun _ q => q) (fun s => if (s =? 10)%nat then 3 else 5)%Q l == 40)%Q.
Proof.
  eexists. split.
  { exists (fun _ _ => false), 1%nat, 2%nat, 0%Q, 10%Q,
      [PIncludeState [10; 12] (Some [EVar 10; EVar 12]) (Some [1; 1]%Q) BNone BNone None [11; 13] false]; eexists.
    split; vm_compute; reflexivity. }
  split; [vm_compute; reflexivity|]. split; [left; vm_compute; reflexivity|].
  split; [right; split; [vm_compute; reflexivity|repeat constructor]|].
  eexists. split; vm_compute; reflexivity.
Qed.

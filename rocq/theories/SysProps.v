(** Property theorems C13-C20: building, rewriting, connecting, merging and
    copying system models. *)
From Verif Require Import Base BaseProofs UtilModel ExprModel SysModel SysSpec SysProofs SysEqProofs SysCtlProofs SysMergeProofs.

(** ** C13 *)

(** After any successful history the equation table lists exactly the states, in
    order and without repetition. *)
Theorem C13_table_in_step :
  forall same ops t tau m,
    run_all (model_step same) ops (new_model t tau) = (m, Ok tt) -> in_step m.
Proof. exact in_step_history. Qed.
Print Assumptions C13_table_in_step.

(** Even when calls fail and the user goes on, no state is listed twice. *)
Theorem C13_table_never_repeats :
  forall same ops t tau,
    NoDup (map fst (m_ode (run_caught (model_step same) ops (new_model t tau)))).
Proof. exact nodup_history. Qed.
Print Assumptions C13_table_never_repeats.

(** Substitutions never change the states. *)
Theorem C13_replacement_keeps_states :
  forall original replacement m,
    let m' := fst (replace_variable original replacement m) in
    m_x m' = m_x m /\ map fst (m_ode m') = map fst (m_ode m).
Proof. exact w_C13_replacement_keeps_states. Qed.
Print Assumptions C13_replacement_keeps_states.

(** A state included twice is rejected with ValueError; new states are accepted
    and appended without equation. *)
Theorem C13_duplicates_rejected :
  forall var x_0 m,
    in_step m ->
    ((NoDup var /\ forall s, In s var -> ~ In s (m_x m)) ->
       exists m', include_state var None x_0 m = (m', Ok tt) /\
         m_x m' = m_x m ++ var /\ m_x_0 m' = m_x_0 m ++ x_0 /\
         (forall s, In s var -> equation_of m' s None) /\ others_keep var m m') /\
    (~ (NoDup var /\ forall s, In s var -> ~ In s (m_x m)) ->
       snd (include_state var None x_0 m) = Raise ValueError).
Proof. exact w_C13_duplicates_rejected. Qed.
Print Assumptions C13_duplicates_rejected.

(** Removing states removes exactly them and their equations. *)
Theorem C13_removal :
  forall var m m',
    in_step m -> remove_state var m = (m', Ok tt) ->
    in_step m' /\ (forall s, In s (m_x m') <-> In s (m_x m) /\ ~ In s var) /\
    (forall s, In s var -> In s (m_x m)) /\ others_keep var m m'.
Proof. exact w_C13_removal. Qed.
Print Assumptions C13_removal.

(** Refuted: a rejected inclusion leaves the model as it was. *)
Theorem C13_rejected_include_atomic_refuted :
  exists same ops t tau var m,
    m = run_caught (model_step same) ops (new_model t tau) /\
    snd (include_state var None [] m) = Raise ValueError /\
    m_x (fst (include_state var None [] m)) = m_x m ++ var /\ var <> [].
Proof. exact w_C13_rejected_include_atomic_refuted. Qed.
Print Assumptions C13_rejected_include_atomic_refuted.

(** Refuted: as many initial conditions as states (after removing a state). *)
Theorem C13_initial_conditions_after_removal_refuted :
  exists same ops t tau m,
    run_all (model_step same) ops (new_model t tau) = (m, Ok tt) /\
    length (m_x m) = 1 /\ length (m_x_0 m) = 2.
Proof. exact w_C13_initial_conditions_after_removal_refuted. Qed.
Print Assumptions C13_initial_conditions_after_removal_refuted.

(** Without removals there is one initial condition per state, even in
    histories with failing calls. *)
Theorem C13_initial_conditions :
  forall same ops t tau,
    Forall keeps_initial_conditions ops ->
    let m := run_caught (model_step same) ops (new_model t tau) in
    length (m_x_0 m) = length (m_x m).
Proof. exact same_count_history. Qed.
Print Assumptions C13_initial_conditions.

Example C13_ex :
  run_all (model_step (fun _ _ => false)) example_history (new_model 1 2) = (example_model, Ok tt) /\
  m_x example_model = [10; 14] /\ map fst (m_ode example_model) = [10; 14].
Proof. vm_compute. repeat split. Qed.

(** ** C14 *)

(** Equations given for named states reach them, by position, and nothing else
    changes. *)
Theorem C14_named_states :
  forall x f m,
    in_step m -> NoDup x -> (forall s, In s x -> In s (m_x m)) -> length f = length x ->
    exists m', include_equations [] (Some f) (Some x) None m = (m', Ok tt) /\
               given_by_position m' x f /\ others_keep x m m' /\ only_ode_differs m m'.
Proof. exact explicit_ok. Qed.
Print Assumptions C14_named_states.

(** Wrong sizes and unknown states are refused without any change. *)
Theorem C14_named_states_refused :
  forall x f m,
    in_step m ->
    (length f <> length x ->
       include_equations [] (Some f) (Some x) None m = (m, Raise AssertionError)) /\
    (length f = length x -> (exists s, In s x /\ ~ In s (m_x m)) ->
       include_equations [] (Some f) (Some x) None m = (m, Raise KeyError)).
Proof. exact w_C14_named_states_refused. Qed.
Print Assumptions C14_named_states_refused.

(** [der(x) == f] does the same; scalar equalities become algebraic residuals. *)
Theorem C14_derivative_form :
  forall args m,
    in_step m -> Forall der_sizes_match args -> NoDup (differentiated args) ->
    (forall s, In s (differentiated args) -> In s (m_x m)) ->
    exists m', include_equations args None None None m = (m', Ok tt) /\
      (forall inner rhs, In (EqDer inner rhs) args -> given_by_position m' inner rhs) /\
      others_keep (differentiated args) m m' /\
      m_alg m' = m_alg m ++ residuals args /\ same_variables m' m /\ m_u_expr m' = m_u_expr m.
Proof. exact der_ok. Qed.
Print Assumptions C14_derivative_form.

(** Refuted: [der(x) == f] with x and f of different sizes is refused.  Two such
    equations whose sizes make up for each other are accepted, and a state gets
    the equation written for another. *)
Theorem C14_derivative_sizes_refuted :
  exists m m' : model,
    in_step m /\
    include_equations [EqDer [10] [EVar 1; EVar 2]; EqDer [11; 12] [EVar 3]] None None None m
      = (m', Ok tt) /\
    equation_of m' 11 (Some (EVar 2)) /\ equation_of m' 12 (Some (EVar 3)).
Proof. exact w_C14_derivative_sizes_refuted. Qed.
Print Assumptions C14_derivative_sizes_refuted.

(** Without named states: when the first state has no equation yet, the
    equations go to the leading states ... *)
Theorem C14_guessed_states :
  forall m s0 rest f,
    in_step m -> m_x m = s0 :: rest -> equation_of m s0 None ->
    (0 < length f <= length (m_x m))%nat ->
    exists m', include_equations [] (Some f) None None m = (m', Ok tt) /\
      given_by_position m' (firstn (length f) (m_x m)) f /\
      others_keep (firstn (length f) (m_x m)) m m' /\ only_ode_differs m m'.
Proof. exact guess_ok. Qed.
Print Assumptions C14_guessed_states.

(** ... and otherwise, or with too many equations, the call is refused without
    any change. *)
Theorem C14_guess_refused :
  forall m f,
    in_step m ->
    (forall s0 rest e, m_x m = s0 :: rest -> equation_of m s0 (Some e) ->
       include_equations [] (Some f) None None m = (m, Raise ValueError)) /\
    (m_x m = [] -> include_equations [] (Some f) None None m = (m, Raise ValueError)) /\
    ((length (m_x m) < length f)%nat ->
       exists e, include_equations [] (Some f) None None m = (m, Raise e)).
Proof. exact w_C14_guess_refused. Qed.
Print Assumptions C14_guess_refused.

(** Naming states without giving equations is refused; algebraic equations given
    in the same call have been included by then. *)
Theorem C14_states_without_equations :
  forall args x alg m,
    exists m', include_equations args None (Some x) alg m = (m', Raise ValueError) /\
      m_ode m' = m_ode m /\ same_variables m' m /\
      m_alg m' = m_alg m ++ match alg with Some a => a | None => [] end ++ residuals args.
Proof. exact w_C14_states_without_equations. Qed.
Print Assumptions C14_states_without_equations.

(** Reading back: the set equations, in state order; one per state exactly when
    every state has one. *)
Theorem C14_read_back :
  forall m,
    in_step m ->
    Forall2 (fun s e => equation_of m s (Some e)) (filter (has_equation m) (m_x m)) (ode m) /\
    (length (ode m) = length (m_x m) <->
     forall s, In s (m_x m) -> exists e, equation_of m s (Some e)) /\
    ((forall s, In s (m_x m) -> exists e, equation_of m s (Some e)) ->
     Forall2 (fun s e => equation_of m s (Some e)) (m_x m) (ode m)).
Proof. exact w_C14_read_back. Qed.
Print Assumptions C14_read_back.

Example C14_ex :
  let m := with_states [10; 11] [12; 13] (new_model 1 2) in
  in_step m /\ equation_of m 10 None /\ (0 < length [EVar 7] <= length (m_x m))%nat /\
  fst (include_equations [] (Some [EVar 7]) None None m)
    = set_ode [(10, Some (EVar 7)); (11, None)] m.
Proof.
  split; [split; [reflexivity | repeat constructor; simpl; intuition discriminate]|].
  split; [left; reflexivity|]. split; [simpl; lia | reflexivity].
Qed.
Example C14_der_ex :
  let m := with_states [10; 11] [12; 13] (new_model 1 2) in
  let args := [EqSX (EVar 3) (EVar 4); EqDer [11] [EVar 10]; EqDer [10] [EVar 11]] in
  Forall der_sizes_match args /\ NoDup (differentiated args) /\
  (forall s, In s (differentiated args) -> In s (m_x m)).
Proof.
  split; [repeat constructor|]. split; [repeat constructor; simpl; intuition discriminate|].
  simpl; intuition subst; auto.
Qed.

(** ** C15 *)

(** As many control expressions as controls after any history, failing calls
    included. *)
Theorem C15_same_count :
  forall same ops t tau,
    let m := run_caught (model_step same) ops (new_model t tau) in
    length (m_u_expr m) = length (m_u m).
Proof. exact count_history. Qed.
Print Assumptions C15_same_count.

(** After a successful history, controls and expressions are paired as the list
    of pairs maintained call by call. *)
Theorem C15_pairing :
  forall same ops t tau m,
    run_all (model_step same) ops (new_model t tau) = (m, Ok tt) ->
    combine (m_u m) (m_u_expr m) = fold_left (fun l o => control_effect t tau o l) ops [].
Proof. exact pairing_history. Qed.
Print Assumptions C15_pairing.

(** A control that no call rewrote is its own expression. *)
Theorem C15_control_is_itself :
  forall same ops t tau m c e,
    run_all (model_step same) ops (new_model t tau) = (m, Ok tt) ->
    (forall o, In o ops -> ~ rewrites_control c o) ->
    In (c, e) (combine (m_u m) (m_u_expr m)) -> e = EVar c.
Proof. exact untouched_control. Qed.
Print Assumptions C15_control_is_itself.

(** Removing controls none of which is still a free parameter raises ValueError,
    after they have left the control vector. *)
Theorem C15_remove_parametrised :
  forall c m,
    length (m_u_expr m) = length (m_u m) ->
    (exists v, In v c /\ In v (m_u m)) -> (forall v, In v c -> ~ In v (m_u_par m)) ->
    snd (remove_control c m) = Raise ValueError /\
    (forall v, In v c -> ~ In v (m_u (fst (remove_control c m)))).
Proof. exact remove_parametrized. Qed.
Print Assumptions C15_remove_parametrised.

(** Refuted: a failed removal leaves the model unchanged. *)
Theorem C15_failed_removal_atomic_refuted :
  exists same ops t tau m,
    run_all (model_step same) ops (new_model t tau) = (m, Ok tt) /\
    In 20 (m_u m) /\
    snd (remove_control [20] m) = Raise ValueError /\
    ~ In 20 (m_u (fst (remove_control [20] m))).
Proof. exact w_C15_failed_removal_atomic_refuted. Qed.
Print Assumptions C15_failed_removal_atomic_refuted.

Example C15_ex :
  combine (m_u example_model) (m_u_expr example_model) =
  [(20, EBin OMul (EVar 25) (EVar 10)); (21, EVar 21)] /\
  (forall o, In o example_history -> ~ rewrites_control 21 o).
Proof.
  split; [reflexivity|]. intros o Ho. simpl in Ho.
  repeat (destruct Ho as [<-|Ho]; [simpl; intuition discriminate|]). contradiction.
Qed.

(** ** C16 *)

(** Substituted equations evaluate like the old ones where each original takes,
    at once, the value of its replacement. *)
Theorem C16_evaluates_at_replacement :
  forall F env original replacement m m',
    replace_variable original replacement m = (m', Ok tt) ->
    model_evaluates_as F env (assign env original (map (eval F env) replacement)) m m'.
Proof. exact w_C16_evaluates_at_replacement. Qed.
Print Assumptions C16_evaluates_at_replacement.

Theorem C16_fresh_unchanged :
  forall original replacement m,
    length original = length replacement ->
    (forall s, In s original -> free_of m s) ->
    replace_variable original replacement m = (m, Ok tt).
Proof. exact w_C16_fresh_unchanged. Qed.
Print Assumptions C16_fresh_unchanged.

(** It succeeds exactly for equal sizes, changes no variable vector, and leaves
    the model unchanged when refused. *)
Theorem C16_sizes_and_frame :
  forall original replacement m,
    (length original = length replacement ->
       snd (replace_variable original replacement m) = Ok tt) /\
    (length original <> length replacement ->
       replace_variable original replacement m = (m, Raise ValueError)) /\
    same_variables (fst (replace_variable original replacement m)) m.
Proof. exact w_C16_sizes_and_frame. Qed.
Print Assumptions C16_sizes_and_frame.

(** The substitution is simultaneous: swapping two variables is possible. *)
Example C16_ex :
  let m := set_alg [EBin OSub (EVar 1) (EVar 2)] (new_model 8 9) in
  m_alg (fst (replace_variable [1; 2] [EVar 2; EVar 1] m)) = [EBin OSub (EVar 2) (EVar 1)] /\
  free_of m 3.
Proof.
  split; [reflexivity|]. unfold free_of, mentions; simpl.
  split; [intros ? ? []|split; [|intros ? []]]. intros e [<-|[]]; simpl; intuition discriminate.
Qed.

(** ** C17 *)

(** When parametrisation succeeds. *)
Theorem C17_succeeds_iff :
  forall u e u_par m,
    (length u = length e /\ NoDup u /\ (forall c, In c u -> ~ In c (m_parametrized m)) /\
     (exists c, In c u /\ In c (m_u_par m))) <->
    snd (parametrize_control u e u_par m) = Ok tt.
Proof. exact parametrize_ok_iff. Qed.
Print Assumptions C17_succeeds_iff.

Theorem C17_evaluates_with_expression :
  forall F env u e u_par m m',
    parametrize_control u e u_par m = (m', Ok tt) ->
    model_evaluates_as F env (assign env u (map (eval F env) e)) m m'.
Proof. exact parametrized_evaluates. Qed.
Print Assumptions C17_evaluates_with_expression.

Theorem C17_control_eliminated :
  forall u e u_par m m' s,
    parametrize_control u e u_par m = (m', Ok tt) -> In s u ->
    (forall ex, In ex e -> ~ mentions ex s) -> free_of m' s.
Proof. exact parametrized_eliminates. Qed.
Print Assumptions C17_control_eliminated.

(** The free parameters are the others followed by the new ones; the controls are
    reported as parametrised; all else stays. *)
Theorem C17_bookkeeping :
  forall u e u_par m m',
    parametrize_control u e u_par m = (m', Ok tt) ->
    m_u_par m' = filter (not_in u) (m_u_par m) ++ match u_par with Some v => v | None => [] end /\
    (forall c, In c u -> control_is_parametrized c m' = true) /\
    (forall c, ~ In c u -> control_is_parametrized c m' = control_is_parametrized c m) /\
    is_parametrized m' = true /\
    m_x m' = m_x m /\ m_y m' = m_y m /\ m_u m' = m_u m /\ m_p m' = m_p m /\ m_theta m' = m_theta m.
Proof. exact w_C17_bookkeeping. Qed.
Print Assumptions C17_bookkeeping.

(** Parametrising again raises ValueError with equations and vectors unchanged. *)
Theorem C17_again_refused :
  forall u e u_par m c,
    In c u -> control_is_parametrized c m = true ->
    exists m', parametrize_control u e u_par m = (m', Raise ValueError) /\
      same_variables m' m /\ m_ode m' = m_ode m /\ m_alg m' = m_alg m /\ m_u_expr m' = m_u_expr m.
Proof. exact w_C17_again_refused. Qed.
Print Assumptions C17_again_refused.

(** Refuted: a refused parametrisation registers nothing.  The control listed
    before the offending one stays registered and can no longer be parametrised. *)
Theorem C17_refused_registers_nothing_refuted :
  exists same ops t tau m,
    run_all (model_step same) ops (new_model t tau) = (m, Ok tt) /\
    control_is_parametrized 21 m = false /\
    let m' := fst (parametrize_control [21; 20] [EVar 3; EVar 4] None m) in
    control_is_parametrized 21 m' = true /\ In 21 (m_u_par m') /\
    snd (parametrize_control [21] [EVar 3] None m') = Raise ValueError.
Proof. exact w_C17_refused_registers_nothing_refuted. Qed.
Print Assumptions C17_refused_registers_nothing_refuted.

(** Refuted: only controls can be parametrised.  A symbol that is no control is
    accepted when listed with one. *)
Theorem C17_only_controls_refuted :
  exists m : model,
    ~ In 99 (m_u m) /\ snd (parametrize_control [20; 99] [EVar 3; EVar 4] None m) = Ok tt.
Proof. exact w_C17_only_controls_refuted. Qed.
Print Assumptions C17_only_controls_refuted.

Example C17_ex :
  exists m', parametrize_control [20] [EBin OMul (EVar 25) (EVar 10)] (Some [25])
               (fst (include_control [20; 21] (new_model 1 2))) = (m', Ok tt) /\
             m_u_par m' = [21; 25].
Proof. eexists; split; vm_compute; reflexivity. Qed.

(** ** C18 *)

Theorem C18_succeeds :
  forall u y replace m,
    length (m_u_expr m) = length (m_u m) ->
    length u = length y -> (exists c, In c u /\ In c (m_u m)) -> (exists c, In c u /\ In c (m_u_par m)) ->
    snd (connect u y replace m) = Ok tt.
Proof. exact w_C18_succeeds. Qed.
Print Assumptions C18_succeeds.

(** What a connection adds and removes; equations minus algebraic variables is
    unchanged. *)
Theorem C18_shape :
  forall u y replace m m',
    length (m_u_expr m) = length (m_u m) ->
    connect u y replace m = (m', Ok tt) ->
    m_x m' = m_x m /\ m_x_0 m' = m_x_0 m /\ m_p m' = m_p m /\ m_theta m' = m_theta m /\
    (m_y m' = if replace then m_y m else m_y m ++ u) /\
    m_u m' = filter (not_in u) (m_u m) /\ m_u_par m' = filter (not_in u) (m_u_par m) /\
    (length (m_alg m') + length (m_y m) = length (m_alg m) + length (m_y m'))%nat /\
    length (m_alg m') = (length (m_alg m) + if replace then 0 else length u)%nat /\
    map fst (m_ode m') = map fst (m_ode m).
Proof. exact connect_shape. Qed.
Print Assumptions C18_shape.

(** The connected system is the old one together with u = y. *)
Theorem C18_solutions :
  forall F env dx u y m m',
    length (m_u_expr m) = length (m_u m) ->
    connect u y false m = (m', Ok tt) ->
    (solves F env dx m' <->
     solves F env dx m /\ Forall2 (fun c e => (env c == eval F env e)%Q) u y).
Proof. exact connect_solves. Qed.
Print Assumptions C18_solutions.

(** In replace mode it is the old system where u takes the value of y. *)
Theorem C18_solutions_replace :
  forall F env dx u y m m',
    length (m_u_expr m) = length (m_u m) ->
    connect u y true m = (m', Ok tt) ->
    (solves F env dx m' <-> solves F (assign env u (map (eval F env) y)) dx m).
Proof. exact connect_replace_solves. Qed.
Print Assumptions C18_solutions_replace.

Theorem C18_sizes_checked_first :
  forall u y replace m,
    length u <> length y -> connect u y replace m = (m, Raise AssertionError).
Proof. exact w_C18_sizes_checked_first. Qed.
Print Assumptions C18_sizes_checked_first.

(** Refuted: a failed connection leaves the model unchanged.  When no u is a
    control, equations and algebraic variables have been added by then. *)
Theorem C18_failed_connect_atomic_refuted :
  exists same ops t tau m,
    run_all (model_step same) ops (new_model t tau) = (m, Ok tt) /\
    let m' := fst (connect [40] [EVar 30] false m) in
    snd (connect [40] [EVar 30] false m) = Raise ValueError /\
    m_y m' = m_y m ++ [40] /\ m_alg m' = m_alg m ++ [EBin OSub (EVar 40) (EVar 30)].
Proof. exact w_C18_failed_connect_atomic_refuted. Qed.
Print Assumptions C18_failed_connect_atomic_refuted.

Example C18_ex :
  let m := fst (include_control [20; 21] (new_model 1 2)) in
  length (m_u_expr m) = length (m_u m) /\
  exists m', connect [21] [EVar 30] false m = (m', Ok tt) /\ m_u m' = [20] /\ m_y m' = [21] /\
  exists m'', connect [21] [EVar 30] true m = (m'', Ok tt) /\ m_y m'' = [].
Proof.
  split; [vm_compute; reflexivity|]. eexists. split; [vm_compute; reflexivity|].
  split; [vm_compute; reflexivity|]. split; [vm_compute; reflexivity|].
  eexists. split; vm_compute; reflexivity.
Qed.

(** ** C19 *)

(** Including models appends their variables and equations in the given order. *)
Theorem C19_appended :
  forall others m m',
    in_step m -> Forall in_step others ->
    include_models others m = (m', Ok tt) ->
    m_x m' = m_x m ++ flat_map m_x others /\
    m_x_0 m' = m_x_0 m ++ flat_map m_x_0 others /\
    m_y m' = m_y m ++ flat_map m_y others /\
    m_u m' = m_u m ++ flat_map m_u others /\
    m_u_par m' = m_u_par m ++ flat_map m_u others /\
    m_p m' = m_p m ++ flat_map m_p others /\
    m_theta m' = m_theta m ++ flat_map m_theta others /\
    length (m_alg m') = (length (m_alg m) + length (flat_map m_alg others))%nat /\
    length (m_ode m') = (length (m_ode m) + length (flat_map m_ode others))%nat /\
    m_t m' = m_t m /\ m_tau m' = m_tau m /\ in_step m' /\ Forall complete others.
Proof. exact include_models_vectors. Qed.
Print Assumptions C19_appended.

(** The merged system is solved exactly where this model is and each included
    model is, with its own time read from this model's. *)
Theorem C19_solutions :
  forall F env dx others m m',
    in_step m -> Forall in_step others -> own_times m others ->
    include_models others m = (m', Ok tt) ->
    (solves F env dx m' <->
     solves F env dx m /\ Forall (fun o => solves F (at_times env m o) dx o) others).
Proof. exact include_models_solves. Qed.
Print Assumptions C19_solutions.

(** [merge] adds the connecting equations to that. *)
Theorem C19_merge_solutions :
  forall F env dx others connecting m m',
    in_step m -> Forall in_step others -> own_times m others ->
    merge others (Some connecting) m = (m', Ok tt) ->
    (solves F env dx m' <->
     solves F env dx m /\ Forall (fun o => solves F (at_times env m o) dx o) others /\
     forall e, In e connecting -> (eval F env e == 0)%Q).
Proof. exact w_C19_merge_solutions. Qed.
Print Assumptions C19_merge_solutions.

(** A shared state is refused. *)
Theorem C19_shared_state_refused :
  forall others m,
    in_step m -> Forall in_step others ->
    ~ NoDup (m_x m ++ flat_map m_x others) ->
    exists e, snd (include_models others m) = Raise e.
Proof. exact w_C19_shared_state_refused. Qed.
Print Assumptions C19_shared_state_refused.

Theorem C19_shared_state_error :
  forall o m s, in_step m -> In s (m_x o) -> In s (m_x m) ->
    snd (include_models [o] m) = Raise ValueError.
Proof. exact w_C19_shared_state_error. Qed.
Print Assumptions C19_shared_state_error.

(** A model with a state that has no equation is refused, after its variables and
    algebraic equations were included. *)
Theorem C19_incomplete_model_refused :
  forall o m,
    in_step m -> in_step o -> (forall s, In s (m_x o) -> ~ In s (m_x m)) ->
    ~ complete o ->
    exists m', include_models [o] m = (m', Raise AssertionError) /\
      m_x m' = m_x m ++ m_x o /\ m_y m' = m_y m ++ m_y o /\ m_u m' = m_u m ++ m_u o /\
      m_alg m' = m_alg m ++ m_alg o /\
      (forall s, In s (m_x o) -> equation_of m' s None).
Proof. exact w_C19_incomplete_model_refused. Qed.
Print Assumptions C19_incomplete_model_refused.

(** Refuted: including keeps what a model's equations need.  The free parameter of
    a parametrised control is in no vector of the receiving model, which lists the
    eliminated control instead. *)
Theorem C19_parametrised_model_refuted :
  exists same ops t tau o m m',
    run_all (model_step same) ops (new_model t tau) = (o, Ok tt) /\
    include_models [o] m = (m', Ok tt) /\
    In 25 (m_u_par o) /\ equation_of m' 10 (Some (EVar 25)) /\
    has_variable [25] m' = false /\ In 20 (m_u_par m') /\ m_u_expr m' = [EVar 20].
Proof. exact w_C19_parametrised_model_refuted. Qed.
Print Assumptions C19_parametrised_model_refuted.

Example C19_ex :
  let o1 := set_ode [(10, Some (EVar 1))] (with_states [10] [11] (new_model 1 2)) in
  let o2 := set_ode [(20, Some (EBin OAdd (EVar 10) (EVar 3)))] (with_states [20] [21] (new_model 3 4)) in
  let m := new_model 5 6 in
  in_step m /\ Forall in_step [o1; o2] /\ own_times m [o1; o2] /\
  exists m', include_models [o1; o2] m = (m', Ok tt) /\
    m_ode m' = [(10, Some (EVar 5)); (20, Some (EBin OAdd (EVar 10) (EVar 5)))].
Proof.
  split; [split; [reflexivity | constructor]|].
  split; [repeat constructor; simpl; intuition|].
  split.
  - split.
    + repeat constructor; simpl; try (intros ? ? []); try (intros ? []); try discriminate.
    + constructor; [|constructor; [constructor | constructor]]. constructor; [|constructor].
      unfold own_time, equations_free_of, mentions; simpl.
      refine (conj (conj _ _) (conj (conj _ _) _)).
      * intros k e [H|[]] Hin; injection H as _ <-; simpl in Hin; intuition discriminate.
      * intros e [].
      * intros k e [H|[]] Hin; injection H as _ <-; simpl in Hin; intuition discriminate.
      * intros e [].
      * repeat split; discriminate.
  - eexists; split; vm_compute; reflexivity.
Qed.

(** ** C20 *)

(** For a model with states, all with an equation, the copy exists, has one new
    variable per variable in the same order, and its equations evaluate like the
    original ones with the original variables read from the new ones. *)
Theorem C20_copy_of_complete_model :
  forall f m,
    fresh_for f m -> in_step m -> complete m -> m_x m <> [] ->
    exists c, get_deepcopy f m = Ok c /\
      m_x c = f_x f /\ m_x_0 c = f_x_0 f /\ m_y c = f_y f /\ m_u c = f_u f /\
      m_p c = f_p f /\ m_theta c = f_theta f /\ m_t c = f_t f /\ m_tau c = f_tau f /\
      in_step c /\
      (forall F env,
         Forall2 (same_equation F env (renamed env f m)) (m_ode m) (m_ode c) /\
         Forall2 (evaluates_as F env (renamed env f m)) (m_alg m) (m_alg c) /\
         Forall2 (evaluates_as F env (renamed env f m)) (m_u_expr m) (m_u_expr c)).
Proof. exact deepcopy_ok. Qed.
Print Assumptions C20_copy_of_complete_model.

(** Refuted: the copy's free control parameters are its own. *)
Theorem C20_free_parameters_copied_refuted :
  forall f m c, fresh_for f m -> get_deepcopy f m = Ok c -> m_u_par c = m_u_par m.
Proof. exact deepcopy_keeps_u_par. Qed.
Print Assumptions C20_free_parameters_copied_refuted.

(** Refuted: every model can be copied. *)
Theorem C20_stateless_model_refuted :
  forall f m, fresh_for f m -> m_x m = [] -> get_deepcopy f m = Raise ValueError.
Proof. exact deepcopy_no_states. Qed.
Print Assumptions C20_stateless_model_refuted.

(** Refuted: equations stay with their states.  The equation of the second state
    becomes that of the first new state. *)
Theorem C20_equations_stay_with_states_refuted :
  exists f m c,
    fresh_for f m /\ in_step m /\ get_deepcopy f m = Ok c /\
    equation_of m 10 None /\ equation_of m 11 (Some (EVar 11)) /\
    m_x c = [20; 21] /\ equation_of c 20 (Some (EVar 21)) /\ equation_of c 21 None.
Proof. exact w_C20_equations_stay_with_states_refuted. Qed.
Print Assumptions C20_equations_stay_with_states_refuted.

(** Refuted: the copy uses its own time symbol. *)
Theorem C20_own_time_refuted :
  exists f m c,
    fresh_for f m /\ in_step m /\ complete m /\ get_deepcopy f m = Ok c /\
    equation_of c 20 (Some (EVar (m_t m))) /\ m_t c <> m_t m.
Proof. exact w_C20_own_time_refuted. Qed.
Print Assumptions C20_own_time_refuted.

Example C20_ex :
  let m := example_model in
  let f := mkFresh [110; 114] [112; 115] [130] [120; 121] [] [] [221; 225] 3 4 in
  fresh_for f m /\ in_step m /\ complete m /\ m_x m <> [].
Proof.
  split.
  { unfold fresh_for; cbn. repeat split; try reflexivity.
    - repeat constructor; simpl; intuition discriminate.
    - simpl. intuition (subst; discriminate). }
  split; [split; [reflexivity | repeat constructor; simpl; intuition discriminate]|].
  split; [|discriminate]. intros s [<-|[<-|[]]]; eexists; [left | right; left]; reflexivity.
Qed.

(** ** C65 *)

(** A model has a variable exactly when one of its components is a state, algebraic
    variable, control, parameter or control parameter of the model. *)
Theorem C65_has_variable :
  forall var m,
    has_variable var m = true <->
    exists s, In s var /\
      (In s (m_x m) \/ In s (m_y m) \/ In s (m_u m) \/ In s (m_p m) \/ In s (m_theta m) \/ In s (m_u_par m)).
Proof. exact has_variable_iff. Qed.
Print Assumptions C65_has_variable.

(** Refuted: all components are looked for. *)
Theorem C65_all_refuted :
  exists var m, has_variable var m = true /\ In 99 var /\
    ~ In 99 (m_x m ++ m_y m ++ m_u m ++ m_p m ++ m_theta m ++ m_u_par m).
Proof. exact w_C65_all_refuted. Qed.
Print Assumptions C65_all_refuted.

Example C65_ex :
  has_variable [99; 14] example_model = true /\ has_variable [99; 98] example_model = false /\
  has_variable [m_t example_model] example_model = false.
Proof. repeat split; vm_compute; reflexivity. Qed.

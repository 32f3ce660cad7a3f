(** Property theorems C21-C23 and C59: DAE systems, simulation and equilibrium. *)
From Coq Require Import String.
From Verif Require Import Base BaseProofs UtilModel ExprModel SysModel SysSpec SimModel SimSpec SimProofs SimMoreProofs.
Local Open Scope list_scope.

(** ** C21 *)

(** What the integrator gets from a model. *)
Theorem C21_system_of_model :
  forall m,
    let d := get_dae_system m in
    d_x d = map EVar (m_x m) /\ d_ode d = ode m /\
    d_p d = map EVar (m_p m ++ m_theta m ++ m_u_par m) /\
    d_t d = Some (m_t m) /\ d_tau d = Some (m_tau m) /\
    (m_y m <> [] -> d_y d = map EVar (m_y m) /\ d_alg d = m_alg m) /\
    (m_y m = [] -> d_y d = [] /\ d_alg d = []).
Proof. exact w_C21_system_of_model. Qed.
Print Assumptions C21_system_of_model.

(** The dictionary: algebraic entries exactly when there are algebraic equations,
    parameters exactly when there are any. *)
Theorem C21_dictionary :
  forall d k v,
    dget String.eqb k (dae_system_dict d) = Some v <->
    (k = "x"%string /\ v = d_x d) \/ (k = "ode"%string /\ v = d_ode d) \/
    (k = "t"%string /\ v = match d_t d with Some t => [EVar t] | None => [] end) \/
    (d_alg d <> [] /\ ((k = "z"%string /\ v = d_y d) \/ (k = "alg"%string /\ v = d_alg d))) \/
    (d_p d <> [] /\ k = "p"%string /\ v = d_p d).
Proof. exact w_C21_dictionary. Qed.
Print Assumptions C21_dictionary.

(** Joining concatenates and identifies the times; with both tau given, likewise. *)
Theorem C21_join_sizes :
  forall o d d',
    dae_join o d = (d', Ok tt) ->
    length (d_x d') = (length (d_x d) + length (d_x o))%nat /\
    length (d_y d') = (length (d_y d) + length (d_y o))%nat /\
    length (d_p d') = (length (d_p d) + length (d_p o))%nat /\
    length (d_ode d') = (length (d_ode d) + length (d_ode o))%nat /\
    length (d_alg d') = (length (d_alg d) + length (d_alg o))%nat /\
    d_t d' = d_t d /\ d_tau d' = d_tau d.
Proof. exact w_C21_join_sizes. Qed.
Print Assumptions C21_join_sizes.

(** The joined system is solved exactly where both parts are, at the common
    times. *)
Theorem C21_join_solutions :
  forall F env dx1 dx2 d o d' t t' tau tau',
    d_t d = Some t -> d_t o = Some t' -> d_tau d = Some tau -> d_tau o = Some tau' ->
    t <> tau' -> t' <> tau' -> length dx1 = length (d_ode d) ->
    dae_join o d = (d', Ok tt) ->
    let env' := assign env [t'; tau'] [env t; env tau] in
    (dae_solves F env (dx1 ++ dx2) d' <-> dae_solves F env' dx1 d /\ dae_solves F env' dx2 o).
Proof. exact join_solves. Qed.
Print Assumptions C21_join_solutions.

Theorem C21_join_solutions_without_tau :
  forall F env dx1 dx2 d o d' t t',
    d_t d = Some t -> d_t o = Some t' -> d_tau d = None \/ d_tau o = None ->
    length dx1 = length (d_ode d) ->
    dae_join o d = (d', Ok tt) ->
    let env' := assign env [t'] [env t] in
    (dae_solves F env (dx1 ++ dx2) d' <-> dae_solves F env' dx1 d /\ dae_solves F env' dx2 o).
Proof. exact join_solves_no_tau. Qed.
Print Assumptions C21_join_solutions_without_tau.

(** A part that does not mention the other's times keeps its solutions. *)
Theorem C21_join_keeps_first :
  forall F env dx d t' tau' q q',
    ~ dae_mentions d t' -> ~ dae_mentions d tau' ->
    (dae_solves F (assign env [t'; tau'] [q; q']) dx d <-> dae_solves F env dx d).
Proof. exact w_C21_join_keeps_first. Qed.
Print Assumptions C21_join_keeps_first.

(** Replacing variables in a system: every vector of it has the values it had with the
    replacements in their place; the times stay. *)
Theorem C21_replace :
  forall F env d old new,
    length old = length new ->
    let d' := dae_substitute_variable old new d in
    let at_new := map (eval F (assign env old (map (eval F env) new))) in
    map (eval F env) (d_x d') = at_new (d_x d) /\ map (eval F env) (d_y d') = at_new (d_y d) /\
    map (eval F env) (d_p d') = at_new (d_p d) /\ map (eval F env) (d_ode d') = at_new (d_ode d) /\
    map (eval F env) (d_alg d') = at_new (d_alg d) /\ d_t d' = d_t d /\ d_tau d' = d_tau d.
Proof. exact substitute_variable_values. Qed.
Print Assumptions C21_replace.

Example C21_replace_ex :
  let d := mkDae [EVar 10] [] [EVar 30] [EBin OMul (EVar 10) (EVar 30)] [] (Some 1) (Some 2) in
  dae_substitute_variable [30; 10] [EVar 31; EVar 30] d =
  mkDae [EVar 30] [] [EVar 31] [EBin OMul (EVar 30) (EVar 31)] [] (Some 1) (Some 2).
Proof. reflexivity. Qed.

(** Refuted: the algebraic equations of a model reach the integrator.  Without
    algebraic variables they are dropped. *)
Theorem C21_algebraic_equations_dropped_refuted :
  exists m, m_alg m <> [] /\ d_alg (get_dae_system m) = [] /\
            ~ dhas String.eqb "alg"%string (dae_system_dict (get_dae_system m)) = true.
Proof. exact w_C21_algebraic_equations_dropped_refuted. Qed.
Print Assumptions C21_algebraic_equations_dropped_refuted.

(** Converting from tau to time: the equations at time t are the old ones at
    tau=(t-t_k)/(t_kp1-t_k); without t or tau it fails and changes nothing. *)
Theorem C21_tau_to_time :
  forall F d t_k t_kp1,
    (forall t tau, d_t d = Some t -> d_tau d = Some tau ->
       exists d', dae_convert_from_tau_to_time t_k t_kp1 d = (d', Ok tt) /\
         d_x d' = d_x d /\ d_y d' = d_y d /\ d_p d' = d_p d /\
         forall env dx,
           dae_solves F env dx d' <->
           dae_solves F (assign env [tau] [(env t - t_k) / (t_kp1 - t_k)]%Q) dx d) /\
    (d_t d = None \/ d_tau d = None ->
       dae_convert_from_tau_to_time t_k t_kp1 d = (d, Raise AttributeError)).
Proof. exact w_C21_tau_to_time. Qed.
Print Assumptions C21_tau_to_time.

Example C21_ex :
  let d := mkDae [EVar 10] [] [] [EBin OMul (EVar 10) (EVar 1)] [] (Some 1) (Some 2) in
  let o := mkDae [EVar 20] [EVar 21] [] [EVar 3] [EBin OSub (EVar 21) (EVar 4)] (Some 3) (Some 4) in
  exists d', dae_join o d = (d', Ok tt) /\ d_ode d' = [EBin OMul (EVar 10) (EVar 1); EVar 1] /\
             d_alg d' = [EBin OSub (EVar 21) (EVar 2)] /\ ~ dae_mentions d 3 /\ ~ dae_mentions d 4.
Proof.
  eexists. split; [reflexivity|]. split; [reflexivity|]. split; [reflexivity|].
  split; intros [e [[<-|[]] H]]; unfold mentions in H; simpl in H; intuition discriminate.
Qed.

(** ** C22 *)

(** One state point per end time plus the initial one; one algebraic and control
    point per end time; at exactly these times. *)
Theorem C22_times :
  forall integrate defaults F m x_0 t_f t_0 u p theta y_0 ty user s,
    simulate integrate defaults F m x_0 t_f t_0 u p theta y_0 ty user = Ok s ->
    t_f <> [] /\ map fst (s_x s) = t_0 :: t_f /\ map fst (s_y s) = t_f /\ map fst (s_u s) = t_f /\
    nth_error (s_x s) 0 = Some (t_0, x_0).
Proof. exact w_C22_times. Qed.
Print Assumptions C22_times.

(** Element i runs from the end point of the element before it, with its own theta
    and control, and its results are the next points. *)
Theorem C22_elements_chained :
  forall integrate defaults F m x_0 t_f t_0 u p theta y_0 ty user s i t,
    simulate integrate defaults F m x_0 t_f t_0 u p theta y_0 ty user = Ok s ->
    nth_error t_f i = Some t ->
    exists t_i x_i y_i th_i u_i xf zf,
      nth_error (s_x s) i = Some (t_i, x_i) /\
      y_i = match i with O => y_0 | S i' => option_map snd (nth_error (s_y s) i') end /\
      dget Nat.eqb i (theta_sim theta (length t_f)) = Some th_i /\
      dget Nat.eqb i (u_sim u (length t_f)) = Some u_i /\
      dae_simulate integrate defaults (get_dae_system m) x_i t t_i (p ++ th_i ++ u_i) y_i ty user
        = Ok (xf, zf) /\
      nth_error (s_x s) (S i) = Some (t, xf) /\ nth_error (s_y s) i = Some (t, zf) /\
      nth_error (s_u s) i = Some (t, f_u F m t xf zf p th_i u_i).
Proof. exact w_C22_elements_chained. Qed.
Print Assumptions C22_elements_chained.

(** The controls recorded at the end of an element are the control expressions of the model
    there: at the time, state and algebraic variables recorded, with the parameters, theta and
    control parameters of the element. *)
Theorem C22_controls :
  forall integrate defaults F m x_0 t_f t_0 u p theta y_0 ty user s i t_i x_i y_i th_i u_i,
    simulate integrate defaults F m x_0 t_f t_0 u p theta y_0 ty user = Ok s ->
    nth_error (s_x s) (S i) = Some (t_i, x_i) -> nth_error (s_y s) i = Some (t_i, y_i) ->
    dget Nat.eqb i (theta_sim theta (length t_f)) = Some th_i -> dget Nat.eqb i (u_sim u (length t_f)) = Some u_i ->
    length x_i = length (m_x m) -> length y_i = length (m_y m) -> length p = length (m_p m) ->
    length th_i = length (m_theta m) -> length u_i = length (m_u_par m) ->
    nth_error (s_u s) i = Some (t_i,
      map (eval F (assign (fun _ => 0%Q) (m_t m :: m_x m ++ m_y m ++ m_p m ++ m_theta m ++ m_u_par m)
                          (t_i :: x_i ++ y_i ++ p ++ th_i ++ u_i))) (m_u_expr m)).
Proof. exact simulated_controls. Qed.
Print Assumptions C22_controls.

(** What one element asks from the integrator. *)
Theorem C22_integrator_call :
  forall integrate defaults d x_0 t_f t_0 p y_0 ty user r,
    NoDup (map fst user) ->
    dae_simulate integrate defaults d x_0 t_f t_0 p y_0 ty user = Ok r ->
    exists c, integrate c = Ok r /\ ic_x0 c = x_0 /\ ic_p c = p /\
      ic_z0 c = (match d_alg d with [] => None | _ => y_0 end) /\
      ic_dae c = dae_system_dict d /\
      (forall k, k <> "name"%string -> dget String.eqb k (ic_opts c) = winning_option defaults user t_f t_0 k) /\
      ~ (t_f == t_0)%Q /\ (forall tau, d_tau d = Some tau -> ~ dae_mentions d tau).
Proof. exact w_C22_integrator_call. Qed.
Print Assumptions C22_integrator_call.

(** Simulating two lists of end times one after the other. *)
Theorem C22_concatenation :
  forall integrate defaults F m x_0 l1 l2 t_0 us p thetas y_0 ty user,
    l1 <> [] -> l2 <> [] -> length us = (length l1 + length l2)%nat ->
    let run := simulate integrate defaults F m in
    let n := length l1 in
    run x_0 (l1 ++ l2) t_0 (UDict (per_element us)) p (Some (per_element thetas)) y_0 ty user =
    match run x_0 l1 t_0 (UDict (per_element (firstn n us))) p
              (Some (per_element (firstn n thetas))) y_0 ty user with
    | Raise e => Raise e
    | Ok a =>
        match run (snd (last_x a)) l2 (fst (last_x a)) (UDict (per_element (skipn n us))) p
                  (Some (per_element (skipn n thetas))) (Some (snd (last_y a))) ty user with
        | Raise e => Raise e
        | Ok b => Ok (then_sim a b)
        end
    end.
Proof. exact simulate_concatenation. Qed.
Print Assumptions C22_concatenation.

(** One control vector holds in every element; controls or thetas that are not given are
    empty in every element. *)
Theorem C22_defaults :
  forall integrate defaults F m x_0 t_f t_0 p y_0 ty user,
    let run := simulate integrate defaults F m x_0 t_f t_0 in
    let n := length t_f in
    (forall v theta, run (UVec v) p theta y_0 ty user = run (UDict (per_element (repeat v n))) p theta y_0 ty user) /\
    (forall theta, run UNone p theta y_0 ty user = run (UDict (per_element (repeat [] n))) p theta y_0 ty user) /\
    (forall u, run u p None y_0 ty user = run u p (Some (per_element (repeat [] n))) y_0 ty user).
Proof. exact simulate_defaults. Qed.
Print Assumptions C22_defaults.

(** When it succeeds: there are end times, the times of each element differ, every element has
    its control and theta, no equation mentions tau, the controls are expressions of the
    variables and parameters of the model, and the integrator never fails. *)
Theorem C22_accepted :
  forall integrate defaults F m x_0 t_f t_0 u p theta y_0 ty user,
    (forall c, exists r, integrate c = Ok r) ->
    ~ dae_mentions (get_dae_system m) (m_tau m) ->
    In ty ["implicit"; "explicit"; "rk"; "collocation"; "cvodes"; "idas"]%string ->
    t_f <> [] ->
    (forall i a b, nth_error (t_0 :: t_f) i = Some a -> nth_error t_f i = Some b -> ~ (a == b)%Q) ->
    (forall th i, theta = Some th -> (i < length t_f)%nat -> dget Nat.eqb i th <> None) ->
    (forall us, u = UDict us -> length us = length t_f /\
       forall i, (i < length t_f)%nat -> dget Nat.eqb i us <> None) ->
    (forall e s, In e (m_u_expr m) -> mentions e s ->
       In s (m_t m :: m_x m ++ m_y m ++ m_p m ++ m_theta m ++ m_u_par m)) ->
    exists r, simulate integrate defaults F m x_0 t_f t_0 u p theta y_0 ty user = Ok r.
Proof. exact simulate_accepted. Qed.
Print Assumptions C22_accepted.

(** Controls that are expressions of anything else are refused. *)
Theorem C22_foreign_symbols :
  forall integrate defaults F m x_0 t_f t_0 u p theta y_0 ty user e s,
    (forall us, u = UDict us -> length us = length t_f) ->
    In e (m_u_expr m) -> mentions e s -> ~ In s (m_t m :: m_x m ++ m_y m ++ m_p m ++ m_theta m ++ m_u_par m) ->
    simulate integrate defaults F m x_0 t_f t_0 u p theta y_0 ty user = Raise CasadiError.
Proof. exact simulate_foreign. Qed.
Print Assumptions C22_foreign_symbols.

(** x' = u with the control u = theta x, and with u = tau. *)
Example C22_feedback_ex :
  let m e := set_theta [40] (set_u [20] (set_u_par [] (set_u_expr [e]
               (set_ode [(10, Some e)] (set_x [10] (new_model 1 2)))))) in
  let e := EBin OMul (EVar 40) (EVar 10) in
  let run m := simulate (fun c => Ok (ic_x0 c, [])) [] (fun _ q => q) m [3]%Q [1; 2]%Q 0%Q UNone []
                 (Some (per_element [[2]; [5]]%Q)) None "rk"%string [] in
  ~ dae_mentions (get_dae_system (m e)) 2 /\
  (forall a s, In a (m_u_expr (m e)) -> mentions a s -> In s [1; 10; 40]) /\
  run (m e) = Ok (mkSim [(0, [3]); (1, [3]); (2, [3])]%Q [(1, []); (2, [])]%Q [(1, [6]); (2, [15])]%Q) /\
  run (m (EVar 2)) = Raise CasadiError.
Proof.
  split; [intros [a [[<-|[]] M]]; unfold mentions in M; cbn in M; intuition discriminate|].
  split; [intros a s [<-|[]] M; unfold mentions in M; cbn in *; tauto|]. split; vm_compute; reflexivity.
Qed.

(** When it fails. *)
Theorem C22_control_sizes :
  forall integrate defaults F m x_0 t_f t_0 us p theta y_0 ty user,
    (1 < length t_f)%nat -> length us <> length t_f ->
    simulate integrate defaults F m x_0 t_f t_0 (UDict us) p theta y_0 ty user = Raise ValueError.
Proof. exact w_C22_control_sizes. Qed.
Print Assumptions C22_control_sizes.

Theorem C22_fails :
  forall integrate defaults F m x_0 t_f t_0 u p theta y_0 ty user,
    (exists i a b, nth_error (t_0 :: t_f) i = Some a /\ nth_error t_f i = Some b /\ (a == b)%Q) \/
    (exists i th, theta = Some th /\ (i < length t_f)%nat /\ dget Nat.eqb i th = None) \/
    (exists i us, u = UDict us /\ (i < length t_f)%nat /\ dget Nat.eqb i us = None) \/
    t_f = [] ->
    exists e, simulate integrate defaults F m x_0 t_f t_0 u p theta y_0 ty user = Raise e.
Proof. exact w_C22_fails. Qed.
Print Assumptions C22_fails.

Theorem C22_zero_length_step :
  forall integrate defaults d x_0 t_f t_0 p y_0 ty user,
    (t_f == t_0)%Q ->
    dae_simulate integrate defaults d x_0 t_f t_0 p y_0 ty user = Raise ValueError.
Proof. exact w_C22_zero_length_step. Qed.
Print Assumptions C22_zero_length_step.

(** A model x' = u with an integrator that takes one Euler step. *)
Example C22_ex :
  let m := set_u [20] (set_u_par [20] (set_u_expr [EVar 20]
             (set_ode [(10, Some (EVar 20))] (set_x [10] (new_model 1 2))))) in
  let integrate := fun c : icall =>
    match dget String.eqb "tf"%string (ic_opts c), dget String.eqb "t0"%string (ic_opts c), ic_x0 c, ic_p c with
    | Some (OptNum tf), Some (OptNum t0), [x], [u] => Ok ([Qred (x + (tf - t0) * u)%Q], [])
    | _, _, _, _ => Raise CasadiError
    end in
  simulate integrate [] (fun _ q => q) m [1]%Q [2; 3; 7]%Q 0%Q
    (UDict (per_element [[1]; [0]; [-1]]%Q)) [] None None "implicit"%string [] =
  Ok (mkSim [(0, [1]); (2, [3]); (3, [3]); (7, [-1])]%Q
            [(2, []); (3, []); (7, [])]%Q [(2, [1]); (3, [0]); (7, [-1])]%Q).
Proof. vm_compute. reflexivity. Qed.

(** ** C23 *)

Theorem C23_selection :
  forall d ty,
    let ode_system := match d_alg d with [] => true | _ => false end in
    select_plugin d ty =
    if String.eqb ty "implicit" then Ok (if ode_system then "cvodes" else "idas")%string
    else if String.eqb ty "explicit" then Ok "rk"%string
    else if existsb (String.eqb ty) ["rk"; "collocation"; "cvodes"; "idas"]%string then Ok ty
    else Raise ValueError.
Proof. exact w_C23_selection. Qed.
Print Assumptions C23_selection.

(** User options win over the time span, which wins over the defaults; the name is
    not passed on as an option. *)
Theorem C23_options :
  forall defaults user t_f t_0 k,
    NoDup (map fst user) -> k <> "name"%string ->
    dget String.eqb k (snd (integrator_options defaults (simulation_options t_f t_0 user))) =
    winning_option defaults user t_f t_0 k.
Proof. exact options_win. Qed.
Print Assumptions C23_options.

Theorem C23_name :
  forall defaults user t_f t_0,
    NoDup (map fst user) ->
    fst (integrator_options defaults (simulation_options t_f t_0 user)) =
    match dget String.eqb "name"%string user with Some v => v | None => OptStr "integrator"%string end.
Proof. exact w_C23_name. Qed.
Print Assumptions C23_name.

(** An unknown integrator name is always reported; the message may be the one about
    equal times, which is checked first. *)
Theorem C23_unknown_name :
  forall integrate defaults d x_0 t_f t_0 p y_0 ty user,
    existsb (String.eqb ty) ["implicit"; "explicit"; "rk"; "collocation"; "cvodes"; "idas"]%string = false ->
    (forall tau, d_tau d = Some tau -> ~ dae_mentions d tau) ->
    dae_simulate integrate defaults d x_0 t_f t_0 p y_0 ty user = Raise ValueError.
Proof. exact w_C23_unknown_name. Qed.
Print Assumptions C23_unknown_name.

Example C23_ex :
  let user := [("abstol"%string, OptNum 1); ("tf"%string, OptNum 9)] in
  let defaults := [("abstol"%string, OptNum 5); ("reltol"%string, OptNum 6)] in
  NoDup (map fst user) /\
  integrator_options defaults (simulation_options 2 0 user) =
  (OptStr "integrator"%string, [("tf"%string, OptNum 9); ("t0"%string, OptNum 0);
                         ("abstol"%string, OptNum 1); ("reltol"%string, OptNum 6)]).
Proof. split; [repeat constructor; simpl; intuition discriminate | reflexivity]. Qed.

(** ** C59 *)

(** The equilibrium returned is a root of the differential, algebraic and additional
    equations at time t_0 and tau = 0, in the unknowns x, y, p and theta, split after
    n_x and n_x + n_y entries. *)
Theorem C59_equilibrium :
  forall root F m additional guess t_0 x y rest,
    (forall unknowns eqs g r env,
       root unknowns eqs g = Ok r -> length r = length unknowns /\
       forall e, In e eqs -> (eval F (assign env unknowns r) e == 0)%Q) ->
    find_equilibrium root m additional guess t_0 = Ok (x, y, rest) ->
    length x = length (m_x m) /\ length y = length (m_y m) /\
    length rest = (length (m_p m) + length (m_theta m))%nat /\
    forall env e, In e (ode m ++ m_alg m ++ additional) ->
      (eval F (assign env (m_t m :: m_tau m :: m_x m ++ m_y m ++ m_p m ++ m_theta m)
                          (t_0 :: 0 :: x ++ y ++ rest)) e == 0)%Q.
Proof. exact equilibrium_ok. Qed.
Print Assumptions C59_equilibrium.

(** The root finder is asked for x, y, p and theta with the equations at the time given and
    tau = 0; it starts from the guess or, without one, from a one for each state, algebraic
    variable and control. *)
Theorem C59_called :
  forall root m additional guess t_0,
    (forall e s, In e (ode m ++ m_alg m ++ additional) -> mentions e s ->
       In s (m_t m :: m_tau m :: m_x m ++ m_y m ++ m_p m ++ m_theta m)) ->
    exists eqs,
      (forall F env, map (eval F env) eqs =
         map (eval F (assign env [m_t m; m_tau m] [t_0; 0%Q])) (ode m ++ m_alg m ++ additional)) /\
      find_equilibrium root m additional guess t_0 =
      match root (m_x m ++ m_y m ++ m_p m ++ m_theta m) eqs
                 (match guess with Some g => g | None => map (fun _ => 1%Q) (m_x m ++ m_y m ++ m_u m) end) with
      | Raise e => Raise e
      | Ok r => Ok (firstn (length (m_x m)) r, firstn (length (m_y m)) (skipn (length (m_x m)) r),
                    skipn (length (m_x m) + length (m_y m)) r)
      end.
Proof. exact equilibrium_called. Qed.
Print Assumptions C59_called.

(** Refuted: the default guess has an entry for each unknown.  Here x and p are unknown, and
    the guess is that of x only: a root finder that refuses such guesses refuses the call. *)
Theorem C59_default_guess_refuted :
  exists m, forall root,
    (forall unknowns eqs g, length g <> length unknowns -> root unknowns eqs g = Raise CasadiError) ->
    find_equilibrium root m [] None 0%Q = Raise CasadiError.
Proof.
  exact (ex_intro _ (set_p [30] (set_ode [(10, Some (EBin OSub (EVar 30) (EVar 10)))] (set_x [10] (new_model 1 2))))
    (equilibrium_short_guess 10 30)).
Qed.
Print Assumptions C59_default_guess_refuted.

(** Refuted: the controls are among the unknowns, as documented.  Any equation that
    mentions a control makes the call fail. *)
Theorem C59_controls_are_unknowns_refuted :
  forall root m additional guess t_0 s e,
    In e (ode m ++ m_alg m ++ additional) -> mentions e s ->
    ~ In s (m_x m ++ m_y m ++ m_p m ++ m_theta m) -> s <> m_t m -> s <> m_tau m ->
    find_equilibrium root m additional guess t_0 = Raise CasadiError.
Proof. exact equilibrium_control. Qed.
Print Assumptions C59_controls_are_unknowns_refuted.

Example C59_ex :
  let m := set_u [20] (set_u_par [20] (set_u_expr [EVar 20]
             (set_ode [(10, Some (EBin OSub (EVar 20) (EVar 10)))] (set_x [10] (new_model 1 2))))) in
  mentions (EBin OSub (EVar 20) (EVar 10)) 20 /\ ~ In 20 (m_x m ++ m_y m ++ m_p m ++ m_theta m) /\
  find_equilibrium (fun _ _ g => Ok g) m [EBin OSub (EVar 10) (EConst 1)] None 0%Q = Raise CasadiError.
Proof. split; [left; reflexivity|]. split; [simpl; intuition discriminate | reflexivity]. Qed.

(** x' = p - x, solved at x = p = 2 by a root finder that knows this model only. *)
Example C59_ex_ok :
  let m := set_p [30] (set_ode [(10, Some (EBin OSub (EVar 30) (EVar 10)))] (set_x [10] (new_model 1 2))) in
  find_equilibrium (fun u _ _ => match u with [10; 30] => Ok [2; 2]%Q | _ => Raise CasadiError end)
    m [] None 0%Q = Ok ([2]%Q, [], [2]%Q).
Proof. reflexivity. Qed.

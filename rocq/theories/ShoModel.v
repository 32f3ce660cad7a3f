(** Model of the transcription by multiple shooting:
    yaocptool/methods/classic/multipleshooting.py (below: ms).  Casadi's symbolic call of
    an integrator is modelled by new symbols for its results, together with a record of
    what they stand for. *)
From Coq Require Import String.
From Verif Require Import Base UtilModel ExprModel NlpModel SysModel SimModel OcpModel LagModel DiscModel.
Local Open Scope list_scope.
Local Open Scope cmd_scope.

(** A simulation inside the optimisation problem: the symbols of its final states and
    algebraic variables, and the arguments of the call of
    yaocptool/modelling/dae_system.py:191 [simulate] that they are the results of. *)
Record shot := mkShot
  { sh_xf : list sym; sh_zf : list sym; sh_dae : dae; sh_x0 : list expr; sh_tf : Q; sh_t0 : Q;
    sh_p : list expr; sh_y0 : option (list Q); sh_type : string; sh_user : options }.

(** What the caller of [get_system_at_given_times] asks for in an element (an entry of
    [time_dict], ms:300-304): its times and, where they are given, the times for the
    states, the algebraic variables, the controls and each of the functions. *)
Record demand := mkDemand
  { wd_t0 : Q; wd_tf : Q; wd_x : option (list Q); wd_y : option (list Q); wd_u : option (list Q);
    wd_f : list (option (list Q)) }.
(** What it gets. *)
Record reached := mkReached
  { g_x : list (list expr); g_y : list (list expr); g_u : list (list expr);
    g_f : list (list (list expr)) }.

Definition asked (ts : option (list Q)) : list Q := match ts with Some l => l | None => [] end.

Fixpoint ctraverse {S A B : Type} (f : A -> cmd S B) (l : list A) : cmd S (list B) :=
  match l with
  | [] => cret []
  | a :: l' => b <~ f a ;; bs <~ ctraverse f l' ;; cret (b :: bs)
  end.

Section Shooting.
  (** casadi: whether an integrator of this name, plugin, system and options can be built. *)
  Variable buildable : optval -> string -> dict string (list expr) -> options -> bool.
  (** The name of an integrator, ms:395: "integrator_" with the element and the number of
      the time. *)
  Variable label : nat -> nat -> string.
  (** config.INTEGRATOR_OPTIONS and the type of integrator of the solution method. *)
  Variable defaults : options.
  Variable integrator_type : string.

  (** dae_system.py:191-245 [simulate] with symbolic arguments: the checks are those of
      [dae_simulate]; the call of the integrator checks the sizes of its arguments. *)
  Definition shoot (d : dae) (x0 : list expr) (t_f t_0 : Q) (p : list expr) (y_0 : option (list Q))
      (user : options) : cmd nlp_state shot :=
    cguard (fun _ => Qeq_bool t_f t_0) ValueError ;;;
    cguard (fun _ => match d_tau d with Some tau => dae_depends_on d [tau] | None => false end)
           AttributeError ;;;
    plugin <~ cres (select_plugin d integrator_type) ;;
    let '(name, opts) := integrator_options defaults (simulation_options t_f t_0 user) in
    cguard (fun _ => negb (buildable name plugin (dae_system_dict d) opts)) CasadiError ;;;
    _ <~ cres (fit (length (d_x d)) x0) ;;
    _ <~ cres (fit (length (d_p d)) p) ;;
    _ <~ cres (match y_0 with
               | Some z => if dae_is_dae d then fit (length (d_y d)) (map EConst z) else Ok []
               | None => Ok []
               end) ;;
    xf <~ fresh (length (d_x d)) ;;
    zf <~ fresh (if dae_is_dae d then length (d_y d) else 0) ;;
    cret (mkShot xf zf d x0 t_f t_0 p y_0 integrator_type user).

  (** The variables of an element: system, control parameters, control function, number. *)
  Record stage := mkStage { st_el : nat; st_dae : dae; st_u : list (list sym); st_fu : func }.

  (** ms:344-347, 405-420: the control at a time. *)
  Definition shooting_control (k : method) (st : stage) (t : Q) (x y p theta : list expr) : res (list expr) :=
    if k_direct k then call (st_fu st) [[EConst t]; map EVar (vectorize (st_u st))]
    else call_at (st_fu st) (mkPoint t x y p theta (map EVar (vectorize (st_u st)))).

  (** ms:361-441: the loop over the times of an element, from the time number [i] on.
      [fts] are the functions (one per element) with their times. *)
  Fixpoint shoot_times (k : method) (st : stage) (us : option (list Q)) (xs ys : option (list Q))
      (fts : list (list func * list Q)) (p : list expr) (thetas : list (list expr)) (start_at_t_0 : bool)
      (i : nat) (ts : list Q) (t_init : Q) (x_init : list expr) : cmd nlp_state (reached * list shot) :=
    match ts with
    | [] => cret (mkReached [] [] [] (map (fun _ => []) fts), [])
    | t :: ts' =>
        theta <~ cres (at_index thetas (st_el st) KeyError) ;;
        let u := map EVar (vectorize (st_u st)) in
        let p_i := if k_direct k then p ++ theta ++ u else p ++ theta in
        sh <~ shoot (st_dae st) x_init t t_init p_i (o_y_guess (k_problem k))
                [("name"%string, OptStr (label (st_el st) i))] ;;
        let x_t := map EVar (sh_xf sh) in
        let y_t := map EVar (sh_zf sh) in
        u_t <~ cres (if in_times t (asked us) then
                       match shooting_control k st t x_t y_t p theta with
                       | Ok v => Ok [v] | Raise e => Raise e end
                     else Ok []) ;;
        f_t <~ cres (res_map (fun ft : list func * list Q =>
                       if in_times t (snd ft) then
                         match at_index (fst ft) (st_el st) KeyError with
                         | Raise e => Raise e
                         | Ok f => match call_at f (mkPoint t x_t y_t p theta u) with
                                   | Ok v => Ok [v] | Raise e => Raise e end
                         end
                       else Ok []) fts) ;;
        rest <~ shoot_times k st us xs ys fts p thetas start_at_t_0 (S i) ts'
                  (if start_at_t_0 then t_init else t) (if start_at_t_0 then x_init else x_t) ;;
        let z := fst rest in
        cret (mkReached ((if in_times t (asked xs) then [x_t] else []) ++ g_x z)
                        ((if in_times t (asked ys) then [y_t] else []) ++ g_y z)
                        (u_t ++ g_u z)
                        (map (fun ab => fst ab ++ snd ab) (combine f_t (g_f z))),
              sh :: snd rest)
    end.

  (** ms:317-359: one element.  The values at [t_0] are known only for the states and for
      the controls of a direct method. *)
  Definition shoot_element (k : method) (bps : list Q) (x u : list (list (list sym)))
      (p : list expr) (thetas : list (list expr)) (functions : list (list func)) (start_at_t_0 : bool)
      (ew : nat * demand) : cmd nlp_state (reached * list shot) :=
    let '(el, w) := ew in
    let t_0 := wd_t0 w in
    x_el <~ cres (match at_index x el IndexError with
                  | Ok l => at_index l 0 IndexError | Raise e => Raise e end) ;;
    a <~ cres (at_index bps el IndexError) ;;
    b <~ cres (at_index bps (el + 1) IndexError) ;;
    d <~ cres (match dae_convert_from_tau_to_time a b (get_dae_system (k_model k)) with
               | (d, Ok _) => Ok d | (_, Raise e) => Raise e end) ;;
    f_u <~ cres (control_function k t_0 (wd_tf w)) ;;
    let grid := sort_times (asked (wd_x w) ++ asked (wd_y w) ++ asked (wd_u w) ++
                            concat (map asked (wd_f w))) in
    cguard (fun _ => in_times t_0 (asked (wd_y w))) NotImplementedErr ;;;
    u_el <~ cres (at_index u el IndexError) ;;
    let st := mkStage el d u_el f_u in
    u_0 <~ cres (if in_times t_0 (asked (wd_u w)) then
                   if k_direct k then
                     match shooting_control k st t_0 [] [] [] [] with
                     | Ok v => Ok [v] | Raise e => Raise e end
                   else Raise NotImplementedErr
                 else Ok []) ;;
    f_ts <~ cres (res_map (fun ts => match ts with
                                     | None => Raise KeyError
                                     | Some l => if in_times t_0 l then Raise NotImplementedErr else Ok l
                                     end) (wd_f w)) ;;
    out <~ shoot_times k st (wd_u w) (wd_x w) (wd_y w) (combine functions f_ts) p thetas start_at_t_0
             0 (filter (fun t => negb (Qeq_bool t t_0)) grid) t_0 (map EVar x_el) ;;
    let z := fst out in
    cret (mkReached ((if in_times t_0 (asked (wd_x w)) then [map EVar x_el] else []) ++ g_x z)
                    (g_y z) (u_0 ++ g_u z) (g_f z),
          snd out).

  (** ms:289-442 [get_system_at_given_times]. *)
  Definition shoot_elements (k : method) (bps : list Q) (x u : list (list (list sym)))
      (p : list expr) (thetas : list (list expr)) (functions : list (list func)) (start_at_t_0 : bool)
      (demands : list (nat * demand)) : cmd nlp_state (list reached * list shot) :=
    l <~ ctraverse (shoot_element k bps x u p thetas functions start_at_t_0) demands ;;
    cret (map fst l, concat (map snd l)).

  (** ms:444-479 [_create_time_dict_for_multiple_shooting]: a constraint with an unknown
      tag gets no entry. *)
  Definition shooting_times (ws : list string) (n : nat) (a b : Q) : res (list (option (list Q))) :=
    res_map (fun i => match at_index ws i IndexError with
                      | Raise e => Raise e
                      | Ok w => Ok (match constraint_times w a b [b] with
                                    | Ok ts => Some ts | Raise _ => None end)
                      end) (seq 0 n).
  Definition shooting_demand (k : method) (bps : list Q) (el : nat) : res (nat * demand) :=
    let o := k_problem k in
    match at_index bps el IndexError, at_index bps (el + 1) IndexError with
    | Ok a, Ok b =>
        match shooting_times (o_when_ineq o) (length (o_g_ineq o)) a b,
              shooting_times (o_when_eq o) (length (o_g_eq o)) a b with
        | Ok gi, Ok ge => Ok (el, mkDemand a b (Some [b]) (Some [b]) None (gi ++ ge ++ [Some [b]]))
        | Raise e, _ => Raise e
        | _, Raise e => Raise e
        end
    | Raise e, _ => Raise e
    | _, Raise e => Raise e
    end.

  (** dsb:107-133 [_create_function_from_expression]. *)
  Definition element_functions (k : method) (bps : list Q) (es : list expr) : res (list func) :=
    res_map (fun el => match at_index bps el IndexError, at_index bps (el + 1) IndexError with
                       | Ok a, Ok b => element_function k a b es
                       | Raise e, _ => Raise e
                       | _, Raise e => Raise e
                       end) (seq 0 (k_elements k)).

  (** ms:212-224: with the cost as a sum the last state, the cost, restarts at 0. *)
  Definition arrival (k : method) (xf : list expr) : res (list expr) :=
    if (k_direct k && k_cost_as_sum k)%bool then
      match xf with [] => Raise IndexError | _ => Ok (removelast xf ++ [EConst 0%Q]) end
    else Ok xf.

  (** ms:207-262: the constraints of one element. *)
  Definition include_shot (k : method) (r : traj sym) (last_u : list sym) (zs : list reached) (i : nat)
    : cmd nlp_state unit :=
    let n_i := length (o_g_ineq (k_problem k)) in
    let n_e := length (o_g_eq (k_problem k)) in
    z <~ cres (at_index zs i IndexError) ;;
    xf <~ cres (at_index (g_x z) 0 IndexError) ;;
    yf <~ cres (at_index (g_y z) 0 IndexError) ;;
    xa <~ cres (arrival k xf) ;;
    xn <~ cres (match at_index (r_x r) (i + 1) IndexError with
                | Ok l => at_index l 0 IndexError | Raise e => Raise e end) ;;
    e <~ cres (vec_sub xa (map EVar xn)) ;;
    nlp_equality e ;;;
    yn <~ cres (match at_index (r_y r) i IndexError with
                | Ok l => at_index l 0 IndexError | Raise e => Raise e end) ;;
    e' <~ cres (vec_sub yf (map EVar yn)) ;;
    nlp_equality e' ;;;
    include_increments k (r_u r) last_u i ;;;
    crun (fun g => v <~ cres (at_index g 0 IndexError) ;; nlp_upper_zero v) (firstn n_i (g_f z)) ;;;
    crun (fun g => v <~ cres (at_index g 0 IndexError) ;; nlp_equality v) (firstn n_e (skipn n_i (g_f z))).

  (** ms:226-227, 278-286: the objective. *)
  Definition shooting_cost (k : method) (x_f p : list expr) (zs : list reached) : res (list expr) :=
    let m := k_model k in
    match res_map (fun z => match last_of (g_f z) with Ok l => last_of l | Raise e => Raise e end) zs with
    | Raise e => Raise e
    | Ok ss =>
        match vec_sum ss with
        | Raise e => Raise e
        | Ok s =>
            if k_direct k then
              if k_cost_as_sum k then
                match res_map (fun z => match at_index (g_x z) 0 IndexError with
                                        | Ok xf => match last_of xf with Ok c => Ok [c] | Raise e => Raise e end
                                        | Raise e => Raise e
                                        end) zs with
                | Raise e => Raise e
                | Ok cs => match vec_sum cs with
                           | Raise e => Raise e
                           | Ok c => zip_vec OAdd c s
                           end
                end
              else
                match make_function [m_x m; m_p m] (o_V (k_problem k)) with
                | Raise e => Raise e
                | Ok f => match call f [x_f; p] with
                          | Raise e => Raise e
                          | Ok v => zip_vec OAdd v s
                          end
                end
            else Ok [EConst 0%Q]
        end
    end.

  (** ms:135-287 [discretize], on the parameters created by smb:243-270.  The breakpoints
      are read per element: none when there are no elements. *)
  Definition shooting_discretize (k : method) (s : par_syms) : cmd nlp_state (traj sym * list shot) :=
    let o := k_problem k in
    r <~ shooting_variables k ;;
    let p := with_p_opt k (ps_p s) r in
    let theta := with_theta_opt k (ps_theta s) r in
    let bps := match breakpoints k with Ok l => l | Raise _ => [] end in
    demands <~ cres (res_map (shooting_demand k bps) (seq 0 (k_elements k))) ;;
    x00 <~ cres (match at_index (r_x r) 0 IndexError with
                 | Ok l => at_index l 0 IndexError | Raise e => Raise e end) ;;
    include_initial k x00 (ps_x0 s) ;;;
    f_i <~ cres (res_map (fun e => element_functions k bps [e]) (o_g_ineq o)) ;;
    f_e <~ cres (res_map (fun e => element_functions k bps [e]) (o_g_eq o)) ;;
    f_s <~ cres (element_functions k bps (o_S o)) ;;
    out <~ shoot_elements k bps (r_x r) (r_u r) p theta (f_i ++ f_e ++ [f_s]) false demands ;;
    let zs := fst out in
    crun (include_shot k r (ps_last_u s) zs) (seq 0 (k_elements k)) ;;;
    x_f <~ cres (match last_of (r_x r) with
                 | Ok l => match at_index l 0 IndexError with Ok v => Ok (map EVar v) | Raise e => Raise e end
                 | Raise e => Raise e end) ;;
    include_final k x_f (r_eta r) p ;;;
    cost <~ cres (shooting_cost k x_f p zs) ;;
    on_nlp (set_objective cost) ;;;
    cret (r, snd out).
End Shooting.

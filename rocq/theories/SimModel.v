(** Model of yaocptool/modelling/dae_system.py and of simulation in
    yaocptool/modelling/system_model.py. *)
From Coq Require Import String.
From Verif Require Import Base UtilModel ExprModel SysModel.
Local Open Scope list_scope.

(** ** DAE systems *)

(** Attributes of a DAE system (dae_system.py:36-72).  [t] is a required argument
    but may be given as None; the variable vectors hold expressions because
    [substitute_variable] rewrites them too. *)
Record dae := mkDae
  { d_x : list expr; d_y : list expr; d_p : list expr;
    d_ode : list expr; d_alg : list expr; d_t : option sym; d_tau : option sym }.

(** dae_system.py:74-102 [is_dae], [is_ode], [type], [has_parameters]. *)
Definition dae_is_ode (d : dae) : bool := (length (d_alg d) =? 0)%nat.
Definition dae_is_dae (d : dae) : bool := negb (dae_is_ode d).
Definition dae_has_parameters (d : dae) : bool := (0 <? length (d_p d))%nat.

Definition opt_sym (s : option sym) : list expr :=
  match s with Some v => [EVar v] | None => [] end.

(** dae_system.py:104-125 [dae_system_dict]. *)
Definition dae_system_dict (d : dae) : dict string (list expr) :=
  (if dae_is_ode d
   then [("x"%string, d_x d); ("ode"%string, d_ode d); ("t"%string, opt_sym (d_t d))]
   else [("x"%string, d_x d); ("z"%string, d_y d); ("ode"%string, d_ode d);
         ("alg"%string, d_alg d); ("t"%string, opt_sym (d_t d))]) ++
  (if dae_has_parameters d then [("p"%string, d_p d)] else []).

(** dae_system.py:137-141 [depends_on]. *)
Definition dae_depends_on (d : dae) (var : list sym) : bool :=
  depends_on_vec (d_ode d ++ d_alg d) var.

(** dae_system.py:143-164 [convert_from_tau_to_time]. *)
Definition dae_convert_from_tau_to_time (t_k t_kp1 : Q) : cmd dae unit :=
  fun d =>
    match d_t d, d_tau d with
    | None, _ => (d, Raise AttributeError)
    | Some _, None => (d, Raise AttributeError)
    | Some t, Some tau =>
        let conv := map (fun e => convert_expr_from_tau_to_time e t tau t_k t_kp1) in
        (mkDae (d_x d) (d_y d) (d_p d) (conv (d_ode d)) (conv (d_alg d)) (d_t d) (d_tau d), Ok tt)
    end.

(** dae_system.py:166-174 [substitute_variable]. *)
Definition dae_substitute_variable (old_var : list sym) (new_var : list expr) (d : dae) : dae :=
  mkDae (subst_vec (d_x d) old_var new_var) (subst_vec (d_y d) old_var new_var)
        (subst_vec (d_p d) old_var new_var) (subst_vec (d_ode d) old_var new_var)
        (subst_vec (d_alg d) old_var new_var) (d_t d) (d_tau d).

(** dae_system.py:176-189 [join].  A missing time makes casadi's [substitute]
    raise after the vectors were extended. *)
Definition dae_join (o : dae) : cmd dae unit :=
  fun d =>
    let d1 := mkDae (d_x d ++ d_x o) (d_y d ++ d_y o) (d_p d ++ d_p o)
                    (d_ode d ++ d_ode o) (d_alg d ++ d_alg o) (d_t d) (d_tau d) in
    match d_t o, d_t d with
    | Some t', Some t =>
        let d2 := dae_substitute_variable [t'] [EVar t] d1 in
        (match d_tau o, d_tau d with
         | Some tau', Some tau => dae_substitute_variable [tau'] [EVar tau] d2
         | _, _ => d2
         end, Ok tt)
    | _, _ => (d1, Raise NotImplementedErr)
    end.

(** system_model.py:73-83 [system_type] and 549-572 [get_dae_system]. *)
Definition get_dae_system (m : model) : dae :=
  let is_dae := (0 <? length (m_y m))%nat in
  mkDae (map EVar (m_x m))
        (if is_dae then map EVar (m_y m) else [])
        (if (0 <? length (m_p m) + length (m_theta m) + length (m_u_par m))%nat
         then map EVar (m_p m ++ m_theta m ++ m_u_par m) else [])
        (ode m)
        (if is_dae then m_alg m else [])
        (Some (m_t m)) (Some (m_tau m)).

(** ** Integrators *)

(** A value in an option dictionary. *)
Inductive optval := OptNum (q : Q) | OptStr (s : string).
Definition options := dict string optval.

(** What is asked from casadi: build an integrator and call it. *)
Record icall := mkIcall
  { ic_name : optval; ic_plugin : string; ic_dae : dict string (list expr);
    ic_opts : options; ic_x0 : list Q; ic_p : list Q; ic_z0 : option (list Q) }.

(** dae_system.py:247-284 [_create_integrator]: the name, the casadi plugin and the
    options.  [defaults] is config.INTEGRATOR_OPTIONS. *)
Definition select_plugin (d : dae) (integrator_type : string) : res string :=
  let ty := if String.eqb integrator_type "explicit" then "rk"%string else integrator_type in
  if String.eqb ty "implicit" && dae_is_ode d then Ok "cvodes"%string
  else if String.eqb ty "implicit" && dae_is_dae d then Ok "idas"%string
  else if memb String.eqb ty ["rk"%string; "collocation"%string; "cvodes"%string; "idas"%string]
  then Ok ty
  else Raise ValueError.

(** dae_system.py:261 [options.pop("name")] and 263-266. *)
Definition integrator_options (defaults opts : options) : optval * options :=
  let name := match dget String.eqb "name"%string opts with
              | Some v => v | None => OptStr "integrator" end in
  let opts1 := filter (fun kv => negb (String.eqb "name" (fst kv))) opts in
  (name,
   fold_left (fun acc kv => if dhas String.eqb (fst kv) acc then acc
                            else dset String.eqb (fst kv) (snd kv) acc) defaults opts1).

(** dae_system.py:223-226: options of one simulation. *)
Definition simulation_options (t_f t_0 : Q) (user : options) : options :=
  dupdate String.eqb [("tf"%string, OptNum t_f); ("t0"%string, OptNum t_0)] user.

Section Simulate.
  (** casadi: building and calling an integrator, returning xf and zf. *)
  Variable integrate : icall -> res (list Q * list Q).
  Variable defaults : options.

  (** dae_system.py:191-245 [simulate]; [p] None is the empty vector. *)
  Definition dae_simulate (d : dae) (x_0 : list Q) (t_f t_0 : Q) (p : list Q)
      (y_0 : option (list Q)) (integrator_type : string) (user : options)
      : res (list Q * list Q) :=
    if Qeq_bool t_f t_0 then Raise ValueError
    else if match d_tau d with Some tau => dae_depends_on d [tau] | None => false end
    then Raise AttributeError
    else
      let opts := simulation_options t_f t_0 user in
      let z0 := if dae_is_dae d then y_0 else None in
      let '(name, opts') := integrator_options defaults opts in
      match select_plugin d integrator_type with
      | Raise e => Raise e
      | Ok plugin => integrate (mkIcall name plugin (dae_system_dict d) opts' x_0 p z0)
      end.

  (** Interpretation of the unary operations of casadi. *)
  Variable F : nat -> Q -> Q.

  (** The controls of a simulation: not given, one vector, or one per element. *)
  Inductive control_arg := UNone | UVec (v : list Q) | UDict (d : dict nat (list Q)).

  (** system_model.py:634-635: [u_sim]. *)
  Definition u_sim (u : control_arg) (n : nat) : dict nat (list Q) :=
    match u with
    | UDict d => d
    | UVec v => map (fun el => (el, v)) (seq 0 n)
    | UNone => map (fun el => (el, [])) (seq 0 n)
    end.
  Definition theta_sim (theta : option (dict nat (list Q))) (n : nat) : dict nat (list Q) :=
    match theta with Some d => d | None => map (fun el => (el, [])) (seq 0 n) end.

  (** The values that the function [f_u] (system_model.py:649, 668-672) gives to the
      symbols of [all_sym].  Casadi reads an empty argument as zeros. *)
  Fixpoint values_of (v : list sym) (q : list Q) (s : sym) : option Q :=
    match v with
    | [] => None
    | a :: v' => if sym_eqb s a then Some (match q with b :: _ => b | [] => 0%Q end)
                 else values_of v' (tl q) s
    end.
  Definition all_sym (m : model) : list sym :=
    m_t m :: m_x m ++ m_y m ++ m_p m ++ m_theta m ++ m_u_par m.
  Definition first_some (l : list (option Q)) : Q :=
    fold_right (fun o acc => match o with Some q => q | None => acc end) 0%Q l.
  Definition f_u (m : model) (t : Q) (x y p theta u_par : list Q) : list Q :=
    let env := fun s => first_some [values_of [m_t m] [t] s; values_of (m_x m) x s;
                 values_of (m_y m) y s; values_of (m_p m) p s; values_of (m_theta m) theta s;
                 values_of (m_u_par m) u_par s] in
    map (eval F env) (m_u_expr m).

  (** A point of a trajectory. *)
  Record sim := mkSim { s_x : list (Q * list Q); s_y : list (Q * list Q); s_u : list (Q * list Q) }.

  (** system_model.py:651-676: the loop over the elements, from element [k] on. *)
  Fixpoint simulate_loop (m : model) (p : list Q) (theta us : dict nat (list Q))
      (ty : string) (user : options) (k : nat) (t_f : list Q) (t_k : Q) (x_k : list Q)
      (y_k : option (list Q)) : res sim :=
    match t_f with
    | [] => Ok (mkSim [] [] [])
    | t_kpp :: rest =>
        match dget Nat.eqb k theta, dget Nat.eqb k us with
        | Some theta_k, Some u_par =>
            match dae_simulate (get_dae_system m) x_k t_kpp t_k (p ++ theta_k ++ u_par) y_k ty user with
            | Raise e => Raise e
            | Ok (xf, zf) =>
                match simulate_loop m p theta us ty user (S k) rest t_kpp xf (Some zf) with
                | Raise e => Raise e
                | Ok s => Ok (mkSim ((t_kpp, xf) :: s_x s) ((t_kpp, zf) :: s_y s)
                                    ((t_kpp, f_u m t_kpp xf zf p theta_k u_par) :: s_u s))
                end
            end
        | _, _ => Raise KeyError
        end
    end.

  (** system_model.py:574-693 [simulate].  Returns the points of x, y and u; the data
      set built from them is modelled in DataModel.  [t_f] is the list of end times
      (one element when a number is given). *)
  Definition simulate (m : model) (x_0 : list Q) (t_f : list Q) (t_0 : Q) (u : control_arg)
      (p : list Q) (theta : option (dict nat (list Q))) (y_0 : option (list Q))
      (ty : string) (user : options) : res sim :=
    let n := length t_f in
    let us := u_sim u n in
    if (1 <? n)%nat && negb (length us =? n)%nat then Raise ValueError
    else if existsb (fun s => negb (memb sym_eqb s (all_sym m))) (flat_map symbols (m_u_expr m))
    then Raise CasadiError
    else
      match simulate_loop m p (theta_sim theta n) us ty user 0 t_f t_0 x_0 y_0 with
      | Raise e => Raise e
      | Ok s => match t_f with
                | [] => Raise IndexError
                | _ => Ok (mkSim ((t_0, x_0) :: s_x s) (s_y s) (s_u s))
                end
      end.
End Simulate.

(** ** Equilibrium *)

(** system_model.py:714-757 [find_equilibrium]: the unknowns of the root finding
    problem and its equations; casadi refuses a function whose expressions mention
    symbols that are not among its inputs.  The root finder is external. *)
Definition equilibrium_unknowns (m : model) : list sym :=
  m_x m ++ m_y m ++ m_p m ++ m_theta m.
Definition equilibrium_equations (m : model) (additional : list expr) (t_0 : Q) : list expr :=
  subst_vec (subst_vec (ode m ++ m_alg m ++ additional) [m_t m] [EConst t_0])
            [m_tau m] [EConst 0%Q].
Definition find_equilibrium (root : list sym -> list expr -> list Q -> res (list Q))
    (m : model) (additional : list expr) (guess : option (list Q)) (t_0 : Q)
    : res (list Q * list Q * list Q) :=
  let n_x := length (m_x m) in
  let n_y := length (m_y m) in
  let g := match guess with
           | Some g => g | None => repeat 1%Q (n_x + n_y + length (m_u m)) end in
  let eqs := equilibrium_equations m additional t_0 in
  let unknowns := equilibrium_unknowns m in
  if existsb (fun s => negb (memb sym_eqb s unknowns)) (flat_map symbols eqs)
  then Raise CasadiError
  else match root unknowns eqs g with
       | Raise e => Raise e
       | Ok r => Ok (firstn n_x r, firstn n_y (skipn n_x r), skipn (n_x + n_y) r)
       end.

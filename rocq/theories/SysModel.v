(** Model of yaocptool/modelling/system_model.py and of the mixins it is made
    of (yaocptool/modelling/mixins).  Vectors of symbols and of expressions are
    lists; column shapes are not distinguished. *)
From Verif Require Import Base UtilModel ExprModel.
Local Open Scope cmd_scope.

(** The attributes of a model (system_model.py:62-71, continuous_states_mixin.py:16-18,
    algebraic_mixin.py:13-14, control_mixin.py:16-20, parameter_mixin.py:12-13).
    Symbols added as free control parameters are assumed to be symbols. *)
Record model := mkModel
  { m_x : list sym; m_x_0 : list sym; m_ode : dict sym (option expr);
    m_y : list sym; m_alg : list expr;
    m_u : list sym; m_u_par : list sym; m_u_expr : list expr; m_parametrized : list sym;
    m_p : list sym; m_theta : list sym;
    m_t : sym; m_tau : sym; m_adjoint : bool }.

(** system_model.py:43-71 [__init__]; [t] and [tau] are the symbols created. *)
Definition new_model (t tau : sym) : model :=
  mkModel [] [] [] [] [] [] [] [] [] [] [] t tau false.

Definition set_x v m := mkModel v (m_x_0 m) (m_ode m) (m_y m) (m_alg m) (m_u m) (m_u_par m)
  (m_u_expr m) (m_parametrized m) (m_p m) (m_theta m) (m_t m) (m_tau m) (m_adjoint m).
Definition set_x_0 v m := mkModel (m_x m) v (m_ode m) (m_y m) (m_alg m) (m_u m) (m_u_par m)
  (m_u_expr m) (m_parametrized m) (m_p m) (m_theta m) (m_t m) (m_tau m) (m_adjoint m).
Definition set_ode v m := mkModel (m_x m) (m_x_0 m) v (m_y m) (m_alg m) (m_u m) (m_u_par m)
  (m_u_expr m) (m_parametrized m) (m_p m) (m_theta m) (m_t m) (m_tau m) (m_adjoint m).
Definition set_y v m := mkModel (m_x m) (m_x_0 m) (m_ode m) v (m_alg m) (m_u m) (m_u_par m)
  (m_u_expr m) (m_parametrized m) (m_p m) (m_theta m) (m_t m) (m_tau m) (m_adjoint m).
Definition set_alg v m := mkModel (m_x m) (m_x_0 m) (m_ode m) (m_y m) v (m_u m) (m_u_par m)
  (m_u_expr m) (m_parametrized m) (m_p m) (m_theta m) (m_t m) (m_tau m) (m_adjoint m).
Definition set_u v m := mkModel (m_x m) (m_x_0 m) (m_ode m) (m_y m) (m_alg m) v (m_u_par m)
  (m_u_expr m) (m_parametrized m) (m_p m) (m_theta m) (m_t m) (m_tau m) (m_adjoint m).
Definition set_u_par v m := mkModel (m_x m) (m_x_0 m) (m_ode m) (m_y m) (m_alg m) (m_u m) v
  (m_u_expr m) (m_parametrized m) (m_p m) (m_theta m) (m_t m) (m_tau m) (m_adjoint m).
Definition set_u_expr v m := mkModel (m_x m) (m_x_0 m) (m_ode m) (m_y m) (m_alg m) (m_u m)
  (m_u_par m) v (m_parametrized m) (m_p m) (m_theta m) (m_t m) (m_tau m) (m_adjoint m).
Definition set_parametrized v m := mkModel (m_x m) (m_x_0 m) (m_ode m) (m_y m) (m_alg m) (m_u m)
  (m_u_par m) (m_u_expr m) v (m_p m) (m_theta m) (m_t m) (m_tau m) (m_adjoint m).
Definition set_p v m := mkModel (m_x m) (m_x_0 m) (m_ode m) (m_y m) (m_alg m) (m_u m)
  (m_u_par m) (m_u_expr m) (m_parametrized m) v (m_theta m) (m_t m) (m_tau m) (m_adjoint m).
Definition set_theta v m := mkModel (m_x m) (m_x_0 m) (m_ode m) (m_y m) (m_alg m) (m_u m)
  (m_u_par m) (m_u_expr m) (m_parametrized m) (m_p m) v (m_t m) (m_tau m) (m_adjoint m).
Definition set_adjoint v m := mkModel (m_x m) (m_x_0 m) (m_ode m) (m_y m) (m_alg m) (m_u m)
  (m_u_par m) (m_u_expr m) (m_parametrized m) (m_p m) (m_theta m) (m_t m) (m_tau m) v.

(** Comparison of two scalar symbols with [is_equal] or as dictionary keys. *)
Definition sym_eqb : sym -> sym -> bool := Nat.eqb.
Definition remove_syms := @remove_variables_from_vector sym sym_eqb.
Definition find_syms := @find_variables_indices_in_vector sym sym_eqb.

(** continuous_states_mixin.py:28-33, property [ode]. *)
Definition ode (m : model) : list expr :=
  flat_map (fun o => match o with Some e => [e] | None => [] end) (dvals (m_ode m)).

(** ** Substitution in the equations *)

Definition subst_vec (es : list expr) (v : list sym) (vdef : list expr) : list expr :=
  map (fun e => substitute e v vdef) es.
Definition subst_ode (d : dict sym (option expr)) (v : list sym) (vdef : list expr)
  : dict sym (option expr) :=
  map (fun kv => (fst kv, match snd kv with
                          | Some e => Some (substitute e v vdef)
                          | None => None
                          end)) d.

(** control_mixin.py:65-78, algebraic_mixin.py:86-104,
    continuous_states_mixin.py:80-95 and system_model.py:274-283
    [replace_variable]: the three methods run from the control mixin upwards, and
    each first compares the sizes.  Line 91 skips the states when [original] is
    empty, where the substitution would do nothing. *)
Definition replace_variable (original : list sym) (replacement : list expr) : cmd model unit :=
  cguard (fun _ => negb (length original =? length replacement)%nat) ValueError ;;;
  cmodify (fun m => set_u_expr (subst_vec (m_u_expr m) original replacement) m) ;;;
  cmodify (fun m => set_alg (subst_vec (m_alg m) original replacement) m) ;;;
  (if (0 <? length original)%nat
   then cmodify (fun m => set_ode (subst_ode (m_ode m) original replacement) m)
   else cret tt).

(** ** Equations *)

(** A positional argument of [include_equations]: [der(inner) == rhs]
    (modelling/utils.py), a scalar SX equality [lhs == rhs], or another SX. *)
Inductive eqn := EqDer (inner : list sym) (rhs : list expr) | EqSX (lhs rhs : expr) | EqOther.

(** continuous_states_mixin.py:138-149 [_include_equation_from_kwargs]. *)
Definition include_equation_from_kwargs (x : list sym) (f : list expr) : cmd model unit :=
  cguard (fun _ => negb (length f =? length x)%nat) AssertionError ;;;
  cguard (fun m => existsb (fun x_i => negb (dhas sym_eqb x_i (m_ode m))) x) KeyError ;;;
  cmodify (fun m => set_ode (dupdate sym_eqb (m_ode m) (combine x (map Some f))) m).

(** continuous_states_mixin.py:151-162 [_include_equation_from_diff_equations]. *)
Definition include_equation_from_diff_equations (args : list eqn) : cmd model unit :=
  include_equation_from_kwargs
    (flat_map (fun a => match a with EqDer inner _ => inner | _ => [] end) args)
    (flat_map (fun a => match a with EqDer _ rhs => rhs | _ => [] end) args).

(** algebraic_mixin.py:106-123 [include_equations]. *)
Definition include_equations_alg (args : list eqn) (alg : option (list expr)) : cmd model unit :=
  let given := match alg with Some a => a | None => [] end in
  let from_args :=
    flat_map (fun a => match a with EqSX l r => [EBin OSub l r] | _ => [] end) args in
  cmodify (fun m => set_alg (m_alg m ++ given ++ from_args) m).

(** Position of the first state without equation: [list(values).index(None)]. *)
Fixpoint index_none (vs : list (option expr)) : option nat :=
  match vs with
  | [] => None
  | None :: _ => Some 0
  | Some _ :: vs' => match index_none vs' with Some k => Some (S k) | None => None end
  end.

(** continuous_states_mixin.py:122-136: the states are guessed.  An empty slice
    makes [vertcat()] fail. *)
Definition guess_states (n : nat) (m : model) : res (list sym) :=
  match index_none (dvals (m_ode m)) with
  | None => Raise ValueError
  | Some first_none =>
      if existsb (fun o => match o with Some _ => true | None => false end)
                 (firstn first_none (dvals (m_ode m)))
      then Raise ValueError
      else match firstn n (skipn first_none (dkeys (m_ode m))) with
           | [] => Raise NotImplementedErr
           | ks => Ok ks
           end
  end.

(** continuous_states_mixin.py:97-136 [include_equations] with
    system_model.py:217-230. *)
Definition include_equations (args : list eqn) (f : option (list expr))
           (x : option (list sym)) (alg : option (list expr)) : cmd model unit :=
  include_equations_alg args alg ;;;
  cguard (fun _ => match f, x with None, Some _ => true | _, _ => false end) ValueError ;;;
  (match args with [] => cret tt | _ => include_equation_from_diff_equations args end) ;;;
  match f with
  | None => cret tt
  | Some f =>
      match x with
      | Some x => include_equation_from_kwargs x f
      | None => fun m => match guess_states (length f) m with
                         | Raise e => (m, Raise e)
                         | Ok x => include_equation_from_kwargs x f m
                         end
      end
  end.

(** ** States *)

(** continuous_states_mixin.py:66-70: the loop that creates the entries. *)
Fixpoint include_state_loop (var : list sym) : cmd model unit :=
  match var with
  | [] => cret tt
  | x_i :: var' =>
      cguard (fun m => dhas sym_eqb x_i (m_ode m)) ValueError ;;;
      cmodify (fun m => set_ode (dset sym_eqb x_i None (m_ode m)) m) ;;;
      include_state_loop var'
  end.

(** continuous_states_mixin.py:56-72 [include_state].  [x_0] is what is appended
    to the initial conditions: the argument, or the symbols created in line 62.
    (For an empty [var] without [x_0], line 62 fails in casadi.) *)
Definition include_state (var : list sym) (f : option (list expr)) (x_0 : list sym)
  : cmd model unit :=
  cmodify (fun m => set_x (m_x m ++ var) m) ;;;
  cmodify (fun m => set_x_0 (m_x_0 m ++ x_0) m) ;;;
  include_state_loop var ;;;
  match f with
  | Some f => include_equations [] (Some f) (Some var) None
  | None => cret tt
  end.

(** continuous_states_mixin.py:77-78. *)
Fixpoint remove_state_loop (var : list sym) : cmd model unit :=
  match var with
  | [] => cret tt
  | x_i :: var' =>
      cset (fun m => ddel sym_eqb x_i (m_ode m)) set_ode ;;; remove_state_loop var'
  end.

(** continuous_states_mixin.py:74-78 [remove_state]. *)
Definition remove_state (var : list sym) : cmd model unit :=
  cset (fun m => remove_syms var (m_x m)) set_x ;;; remove_state_loop var.

(** ** Algebraic variables *)

(** algebraic_mixin.py:76-79 [include_algebraic]. *)
Definition include_algebraic (var : list sym) (alg : option (list expr)) : cmd model unit :=
  cmodify (fun m => set_y (m_y m ++ var) m) ;;;
  match alg with
  | Some a => include_equations [] None None (Some a)
  | None => cret tt
  end.

(** algebraic_mixin.py:81-84 [remove_algebraic]; [same a b] is [is_equal] of two
    expressions (node identity). *)
Definition remove_algebraic (same : expr -> expr -> bool) (var : list sym)
           (eq : option (list expr)) : cmd model unit :=
  cset (fun m => remove_syms var (m_y m)) set_y ;;;
  match eq with
  | Some e => cset (fun m => remove_variables_from_vector same e (m_alg m)) set_alg
  | None => cret tt
  end.

(** ** Controls *)

(** control_mixin.py:53-56 [include_control]. *)
Definition include_control (var : list sym) : cmd model unit :=
  cmodify (fun m => set_u (m_u m ++ var) m) ;;;
  cmodify (fun m => set_u_expr (m_u_expr m ++ map EVar var) m) ;;;
  cmodify (fun m => set_u_par (m_u_par m ++ var) m).

(** control_mixin.py:58-63 [remove_control]. *)
Definition remove_control (var : list sym) : cmd model unit :=
  cset (fun m => remove_variables_from_vector_by_indices
                   (map Z.of_nat (find_syms var (m_u m))) (m_u_expr m)) set_u_expr ;;;
  cset (fun m => remove_syms var (m_u m)) set_u ;;;
  cset (fun m => remove_syms var (m_u_par m)) set_u_par.

(** control_mixin.py:124-140 [control_is_parametrized] for one symbol. *)
Definition control_is_parametrized (u : sym) (m : model) : bool :=
  existsb (sym_eqb u) (m_parametrized m).

(** control_mixin.py:94-99. *)
Fixpoint parametrize_loop (u : list sym) : cmd model unit :=
  match u with
  | [] => cret tt
  | u_i :: u' =>
      cguard (control_is_parametrized u_i) ValueError ;;;
      cmodify (fun m => set_parametrized (m_parametrized m ++ [u_i]) m) ;;;
      parametrize_loop u'
  end.

(** control_mixin.py:80-107 [parametrize_control]. *)
Definition parametrize_control (u : list sym) (e : list expr) (u_par : option (list sym))
  : cmd model unit :=
  cguard (fun _ => negb (length u =? length e)%nat) ValueError ;;;
  parametrize_loop u ;;;
  cset (fun m => remove_syms u (m_u_par m)) set_u_par ;;;
  (match u_par with
   | Some v => cmodify (fun m => set_u_par (m_u_par m ++ v) m)
   | None => cret tt
   end) ;;;
  replace_variable u e.

(** system_model.py:359-366 [is_parametrized]. *)
Definition is_parametrized (m : model) : bool :=
  match m_parametrized m with [] => false | _ => true end.

(** ** Parameters *)

(** parameter_mixin.py:65-75. *)
Definition include_parameter (p : list sym) : cmd model unit :=
  cmodify (fun m => set_p (m_p m ++ p) m).
Definition include_theta (th : list sym) : cmd model unit :=
  cmodify (fun m => set_theta (m_theta m ++ th) m).
Definition remove_parameter (var : list sym) : cmd model unit :=
  cset (fun m => remove_syms var (m_p m)) set_p.
Definition remove_theta (var : list sym) : cmd model unit :=
  cset (fun m => remove_syms var (m_theta m)) set_theta.

(** ** Combining models *)

(** system_model.py:377-390: one iteration of [include_models]. *)
Definition include_model (other : model) : cmd model unit :=
  include_state (m_x other) None (m_x_0 other) ;;;
  include_algebraic (m_y other) None ;;;
  include_control (m_u other) ;;;
  include_parameter (m_p other) ;;;
  include_theta (m_theta other) ;;;
  include_equations [] (Some (ode other)) (Some (m_x other)) (Some (m_alg other)) ;;;
  (fun m => replace_variable [m_t other] [EVar (m_t m)] m) ;;;
  (fun m => replace_variable [m_tau other] [EVar (m_tau m)] m).

(** system_model.py:368-390 [include_models]. *)
Definition include_models (others : list model) : cmd model unit :=
  fun m => run_all include_model others m.

(** system_model.py:392-403 [merge]. *)
Definition merge (others : list model) (connecting : option (list expr)) : cmd model unit :=
  include_models others ;;;
  match connecting with
  | Some e => include_equations [] None None (Some e)
  | None => cret tt
  end.

(** Componentwise difference of two SX vectors of one size. *)
Definition sub_vec (a b : list expr) : list expr :=
  map (fun ab => EBin OSub (fst ab) (snd ab)) (combine a b).

(** system_model.py:405-427 [connect]. *)
Definition connect (u : list sym) (y : list expr) (replace : bool) : cmd model unit :=
  cguard (fun _ => negb (length u =? length y)%nat) AssertionError ;;;
  (if replace then replace_variable u y
   else include_equations [] None None (Some (sub_vec (map EVar u) y)) ;;;
        include_algebraic u None) ;;;
  remove_control u.

(** system_model.py:340-357 [has_variable]. *)
Definition has_variable (var : list sym) (m : model) : bool :=
  (0 <? length (find_syms var
       (m_x m ++ m_y m ++ m_u m ++ m_p m ++ m_theta m ++ m_u_par m)))%nat.

(** ** Copies *)

(** The symbols that [get_deepcopy] creates. *)
Record fresh := mkFresh
  { f_x : list sym; f_x_0 : list sym; f_y : list sym; f_u : list sym; f_p : list sym;
    f_theta : list sym; f_u_par : list sym; f_t : sym; f_tau : sym }.

(** [create_state] (continuous_states_mixin.py:36-54) once per state. *)
Fixpoint create_states (xs x_0s : list sym) : cmd model unit :=
  match xs, x_0s with
  | x :: xs', x_0 :: x_0s' => include_state [x] None [x_0] ;;; create_states xs' x_0s'
  | _, _ => cret tt
  end.
Fixpoint each {S : Type} (f : sym -> cmd S unit) (l : list sym) : cmd S unit :=
  match l with [] => cret tt | a :: l' => f a ;;; each f l' end.

(** system_model.py:480-547 [get_deepcopy]: the copy that is built. *)
Definition get_deepcopy (f : fresh) (m : model) : res model :=
  let build :=
    create_states (f_x f) (f_x_0 f) ;;;
    each (fun y => include_algebraic [y] None) (f_y f) ;;;
    each (fun u => include_control [u]) (f_u f) ;;;
    each (fun p => include_parameter [p]) (f_p f) ;;;
    each (fun th => include_theta [th]) (f_theta f) ;;;
    include_equations [] (Some (ode m)) None (Some (m_alg m)) ;;;
    cmodify (set_u_par (m_u_par m)) ;;;
    cmodify (set_u_expr (m_u_expr m)) ;;;
    replace_variable (m_x m) (map EVar (f_x f)) ;;;
    replace_variable (m_y m) (map EVar (f_y f)) ;;;
    replace_variable (m_u m) (map EVar (f_u f)) ;;;
    replace_variable (m_p m) (map EVar (f_p f)) ;;;
    replace_variable (m_theta m) (map EVar (f_theta f)) ;;;
    replace_variable (m_u_par m) (map EVar (f_u_par f)) ;;;
    cmodify (set_adjoint (m_adjoint m)) in
  match build (new_model (f_t f) (f_tau f)) with
  | (c, Ok _) => Ok c
  | (_, Raise e) => Raise e
  end.

(** ** The calls a user can make on a model *)
Inductive model_op : Type :=
| MIncludeState (var : list sym) (f : option (list expr)) (x_0 : list sym)
| MRemoveState (var : list sym)
| MIncludeEquations (args : list eqn) (f : option (list expr)) (x : option (list sym))
                    (alg : option (list expr))
| MReplaceVariable (original : list sym) (replacement : list expr)
| MIncludeAlgebraic (var : list sym) (alg : option (list expr))
| MRemoveAlgebraic (var : list sym) (eq : option (list expr))
| MIncludeControl (var : list sym)
| MRemoveControl (var : list sym)
| MParametrizeControl (u : list sym) (e : list expr) (u_par : option (list sym))
| MIncludeParameter (p : list sym)
| MIncludeTheta (th : list sym)
| MRemoveParameter (p : list sym)
| MRemoveTheta (th : list sym)
| MIncludeModels (others : list model)
| MConnect (u : list sym) (y : list expr) (replace : bool).

Definition model_step (same : expr -> expr -> bool) (o : model_op) : cmd model unit :=
  match o with
  | MIncludeState var f x_0 => include_state var f x_0
  | MRemoveState var => remove_state var
  | MIncludeEquations args f x alg => include_equations args f x alg
  | MReplaceVariable a b => replace_variable a b
  | MIncludeAlgebraic var alg => include_algebraic var alg
  | MRemoveAlgebraic var eq => remove_algebraic same var eq
  | MIncludeControl var => include_control var
  | MRemoveControl var => remove_control var
  | MParametrizeControl u e u_par => parametrize_control u e u_par
  | MIncludeParameter p => include_parameter p
  | MIncludeTheta th => include_theta th
  | MRemoveParameter p => remove_parameter p
  | MRemoveTheta th => remove_theta th
  | MIncludeModels others => include_models others
  | MConnect u y replace => connect u y replace
  end.

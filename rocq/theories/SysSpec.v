(** Specification vocabulary for system models: valuations, solutions, and the
    pairing of states with equations and of controls with expressions. *)
From Verif Require Import Base ExprModel SysModel.

(** The valuation that gives the symbols of [v], at once, the values [q] (the
    first occurrence counts) and leaves the rest alone. *)
Fixpoint assign (env : sym -> Q) (v : list sym) (q : list Q) (s : sym) : Q :=
  match v, q with
  | a :: v', b :: q' => if Nat.eq_dec s a then b else assign env v' q' s
  | _, _ => env s
  end.

(** A point [env] with state derivatives [dx] satisfies the equations of the
    model. *)
Definition solves (F : nat -> Q -> Q) (env dx : sym -> Q) (m : model) : Prop :=
  (forall s e, In (s, Some e) (m_ode m) -> (dx s == eval F env e)%Q) /\
  (forall e, In e (m_alg m) -> (eval F env e == 0)%Q).

(** The equation table lists exactly the states, in order, without repetition. *)
Definition in_step (m : model) : Prop := map fst (m_ode m) = m_x m /\ NoDup (m_x m).

(** No equation or control expression mentions [s]. *)
Definition mentions (e : expr) (s : sym) : Prop := In s (symbols e).
Definition free_of (m : model) (s : sym) : Prop :=
  (forall k e, In (k, Some e) (m_ode m) -> ~ mentions e s) /\
  (forall e, In e (m_alg m) -> ~ mentions e s) /\
  (forall e, In e (m_u_expr m) -> ~ mentions e s).

(** Same differential equation (or none) up to evaluation: [new] at [env] is
    [old] at [env']. *)
Definition evaluates_as (F : nat -> Q -> Q) (env env' : sym -> Q) (old new : expr) : Prop :=
  eval F env new = eval F env' old.
Definition entry_evaluates_as F env env' (old new : sym * option expr) : Prop :=
  fst new = fst old /\
  match snd old, snd new with
  | Some e, Some e' => evaluates_as F env env' e e'
  | None, None => True
  | _, _ => False
  end.
Definition model_evaluates_as F env env' (old new : model) : Prop :=
  Forall2 (entry_evaluates_as F env env') (m_ode old) (m_ode new) /\
  Forall2 (evaluates_as F env env') (m_alg old) (m_alg new) /\
  Forall2 (evaluates_as F env env') (m_u_expr old) (m_u_expr new).

(** All variable vectors of two models agree. *)
Definition same_variables (a b : model) : Prop :=
  m_x a = m_x b /\ m_x_0 a = m_x_0 b /\ m_y a = m_y b /\ m_u a = m_u b /\
  m_u_par a = m_u_par b /\ m_p a = m_p b /\ m_theta a = m_theta b /\
  m_t a = m_t b /\ m_tau a = m_tau b.

(** ** Controls with their expressions, as a list of pairs *)

Definition not_in (l : list sym) (s : sym) : bool := if in_dec Nat.eq_dec s l then false else true.
Definition rewrite_pairs (v : list sym) (d : list expr) (l : list (sym * expr)) :=
  map (fun ce => (fst ce, substitute (snd ce) v d)) l.
Definition add_pairs (c : list sym) (l : list (sym * expr)) := l ++ map (fun s => (s, EVar s)) c.
Definition drop_pairs (c : list sym) (l : list (sym * expr)) :=
  filter (fun ce => not_in c (fst ce)) l.

(** What each accepted call does to the list of pairs of a model with time
    symbols [t] and [tau]. *)
Definition control_effect (t tau : sym) (o : model_op) (l : list (sym * expr))
  : list (sym * expr) :=
  match o with
  | MIncludeControl c => add_pairs c l
  | MRemoveControl c => drop_pairs c l
  | MReplaceVariable v d => rewrite_pairs v d l
  | MParametrizeControl c d _ => rewrite_pairs c d l
  | MConnect c d true => drop_pairs c (rewrite_pairs c d l)
  | MConnect c _ false => drop_pairs c l
  | MIncludeModels others =>
      fold_left (fun l o => rewrite_pairs [m_tau o] [EVar tau]
                              (rewrite_pairs [m_t o] [EVar t] (add_pairs (m_u o) l))) others l
  | _ => l
  end.

(** Histories that never remove states and name one initial condition per
    state. *)
Definition keeps_initial_conditions (o : model_op) : Prop :=
  match o with
  | MIncludeState var _ x_0 => length x_0 = length var
  | MRemoveState _ => False
  | MIncludeModels others => Forall (fun m => length (m_x_0 m) = length (m_x m)) others
  | _ => True
  end.

(** ** Equations of states *)

(** State [s] has equation [e] ([None]: none yet). *)
Definition equation_of (m : model) (s : sym) (e : option expr) : Prop := In (s, e) (m_ode m).

(** The equations [f] are those of the states [x], by position. *)
Definition given_by_position (m : model) (x : list sym) (f : list expr) : Prop :=
  forall i s e, nth_error x i = Some s -> nth_error f i = Some e -> equation_of m s (Some e).
Definition others_keep (x : list sym) (m m' : model) : Prop :=
  forall s e, ~ In s x -> (equation_of m' s e <-> equation_of m s e).

(** Nothing but differential equations differs. *)
Definition only_ode_differs (m m' : model) : Prop :=
  same_variables m' m /\ m_alg m' = m_alg m /\ m_u_expr m' = m_u_expr m /\
  m_parametrized m' = m_parametrized m /\ map fst (m_ode m') = map fst (m_ode m).

Definition has_equation (m : model) (s : sym) : bool :=
  existsb (fun kv => match snd kv with Some _ => Nat.eqb (fst kv) s | None => false end) (m_ode m).

(** Residuals of the scalar equalities among the positional arguments. *)
Fixpoint residuals (args : list eqn) : list expr :=
  match args with
  | EqSX l r :: rest => EBin OSub l r :: residuals rest
  | _ :: rest => residuals rest
  | [] => []
  end.
Fixpoint differentiated (args : list eqn) : list sym :=
  match args with
  | EqDer inner _ :: rest => inner ++ differentiated rest
  | _ :: rest => differentiated rest
  | [] => []
  end.
Definition der_sizes_match (a : eqn) : Prop :=
  match a with EqDer inner rhs => length inner = length rhs | _ => True end.

(** Calls that rewrite the expression of control [c]. *)
Definition rewrites_control (c : sym) (o : model_op) : Prop :=
  match o with
  | MReplaceVariable v _ => In c v
  | MParametrizeControl v _ _ => In c v
  | MConnect v _ true => In c v
  | MIncludeModels others => exists other, In other others /\ (c = m_t other \/ c = m_tau other)
  | _ => False
  end.

(** ** Merging and copying *)

Definition complete (m : model) : Prop :=
  forall s, In s (m_x m) -> exists e, equation_of m s (Some e).

(** No differential or algebraic equation mentions [s]. *)
Definition equations_free_of (m : model) (s : sym) : Prop :=
  (forall k e, In (k, Some e) (m_ode m) -> ~ mentions e s) /\
  (forall e, In e (m_alg m) -> ~ mentions e s).

(** The time symbols of [o] are its own: they are neither used by [m] nor the
    times [t], [tau] of the model that receives [o]. *)
Definition own_time (t tau : sym) (m o : model) : Prop :=
  equations_free_of m (m_t o) /\ equations_free_of m (m_tau o) /\
  m_t o <> t /\ m_t o <> tau /\ m_tau o <> t /\ m_tau o <> tau.
Definition own_times (m : model) (others : list model) : Prop :=
  Forall (own_time (m_t m) (m_tau m) m) others /\
  ForallOrdPairs (own_time (m_t m) (m_tau m)) others.

(** [o] reads its time symbols from those of the receiving model. *)
Definition at_times (env : sym -> Q) (m o : model) : sym -> Q :=
  assign env [m_t o; m_tau o] [env (m_t m); env (m_tau m)].

(** As many new symbols as variables, all new. *)
Definition old_symbols (m : model) : list sym :=
  m_x m ++ m_y m ++ m_u m ++ m_p m ++ m_theta m ++ m_u_par m.
Definition new_symbols (f : fresh) : list sym :=
  f_x f ++ f_y f ++ f_u f ++ f_p f ++ f_theta f ++ f_u_par f.
Definition fresh_for (f : fresh) (m : model) : Prop :=
  length (f_x f) = length (m_x m) /\ length (f_x_0 f) = length (m_x m) /\
  length (f_y f) = length (m_y m) /\ length (f_u f) = length (m_u m) /\
  length (f_p f) = length (m_p m) /\ length (f_theta f) = length (m_theta m) /\
  length (f_u_par f) = length (m_u_par m) /\ NoDup (new_symbols f) /\
  (forall s, In s (new_symbols f) -> ~ In s (old_symbols m)).

(** The original variables take the values of the new ones. *)
Definition renamed (env : sym -> Q) (f : fresh) (m : model) : sym -> Q :=
  assign env (old_symbols m) (map env (new_symbols f)).
Definition same_equation (F : nat -> Q -> Q) (env env' : sym -> Q)
           (old new : sym * option expr) : Prop :=
  exists e e', snd old = Some e /\ snd new = Some e' /\ evaluates_as F env env' e e'.

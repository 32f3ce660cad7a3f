(** Specification vocabulary for the NLP builder: what it means for a point to
    satisfy a request, and for a point to be feasible for a problem. *)
From Verif Require Import Base ExprModel NlpModel.

Definition ext_le (a b : ext) : Prop :=
  match a, b with
  | NInf, _ => True
  | _, PInf => True
  | Fin x, Fin y => (x <= y)%Q
  | _, _ => False
  end.

Section Meaning.
  (** Meaning of unary operations, and the point: a value for every symbol. *)
  Variable F : nat -> Q -> Q.
  Variable env : sym -> Q.

  Definition bnd_value (b : bnd) : ext :=
    match b with BNum e => e | BExp e => Fin (eval F env e) end.

  (** Componentwise lower <= value <= upper. *)
  Definition within (vals : list Q) (lb ub : list bnd) : Prop :=
    forall i q l u,
      nth_error vals i = Some q -> nth_error lb i = Some l -> nth_error ub i = Some u ->
      ext_le (bnd_value l) (Fin q) /\ ext_le (Fin q) (bnd_value u).

  (** The point satisfies what is handed to the solver. *)
  Definition feasible (s : nlp) : Prop :=
    within (map env (nx s)) (nx_lb s) (nx_ub s) /\
    within (map (eval F env) (ng s)) (ng_lb s) (ng_ub s).

  (** The bound a caller asked for component [i]: numbers and vectors of one
      entry count for every component. *)
  Definition asked (a : barg) (i : nat) : option bnd :=
    match a with
    | AFloat e => Some (BNum e)
    | AInt z => Some (BNum (Fin (inject_Z z)))
    | AVec [b] => Some b
    | AVec l => nth_error l i
    end.
  Definition above (a : option barg) (i : nat) (q : Q) : Prop :=
    match a with
    | None => True
    | Some a => forall b, asked a i = Some b -> ext_le (bnd_value b) (Fin q)
    end.
  Definition below (a : option barg) (i : nat) (q : Q) : Prop :=
    match a with
    | None => True
    | Some a => forall b, asked a i = Some b -> ext_le (Fin q) (bnd_value b)
    end.
  Definition equals (a : option barg) (i : nat) (q : Q) : Prop :=
    match a with
    | None => (q == 0)%Q
    | Some a => forall b, asked a i = Some b ->
                  exists r, bnd_value b = Fin r /\ (q == r)%Q
    end.

  (** One side of a relation at component [i]; a scalar counts for every
      component. *)
  Definition side (es : list expr) (i : nat) : option expr :=
    match es with [e] => Some e | _ => nth_error es i end.

  Definition rel_holds (r : rel) : Prop :=
    forall i a b,
      (i < max (length (r_dep0 r)) (length (r_dep1 r)))%nat ->
      side (r_dep0 r) i = Some a -> side (r_dep1 r) i = Some b ->
      match r_op r with
      | OpEq => (eval F env a == eval F env b)%Q
      | OpLe => (eval F env a <= eval F env b)%Q
      | OpLt => (eval F env a < eval F env b)%Q
      | OpOther => True
      end.

  (** The point satisfies a request of the user. *)
  Definition satisfies (o : nlp_op) : Prop :=
    match o with
    | NCreateVariable v lb ub | NIncludeVariable v lb ub =>
        forall i x, nth_error v i = Some x ->
          above (Some lb) i (env x) /\ below (Some ub) i (env x)
    | NIncludeInequality _ e lb ub =>
        forall i x, nth_error e i = Some x ->
          above lb i (eval F env x) /\ below ub i (eval F env x)
    | NIncludeEquality _ e rhs =>
        forall i x, nth_error e i = Some x -> equals rhs i (eval F env x)
    | NIncludeConstraint r => rel_holds r
    | NIncludeParameter _ | NSetObjective _ | NSolve _ _ _ _ _ => True
    end.
End Meaning.

(** The calls of a history that were accepted. *)
Fixpoint accepted {S O A : Type} (step : O -> cmd S A) (ops : list O) (s : S) : list O :=
  match ops with
  | [] => []
  | o :: ops' =>
      match step o s with
      | (s', Ok _) => o :: accepted step ops' s'
      | (s', Raise _) => accepted step ops' s'
      end
  end.

(** Casadi's [is_equal] of a number vector and an expression, when it compares
    values of constants. *)
Definition compares_values (F : nat -> Q -> Q) (is_equal_dm : list bnd -> list expr -> bool)
  : Prop :=
  (forall es, forallb is_constant es = true -> is_equal_dm (to_DM F es) es = true) /\
  (forall dm es, forallb is_constant es = false -> is_equal_dm dm es = false).

(** Lengths agree and every numeric pair of bounds is ordered. *)
Definition aligned (s : nlp) : Prop :=
  length (nx s) = length (nx_lb s) /\ length (nx s) = length (nx_ub s) /\
  length (ng s) = length (ng_lb s) /\ length (ng s) = length (ng_ub s).
Definition ordered (lb ub : list bnd) : Prop :=
  forall i a b, nth_error lb i = Some (BNum a) -> nth_error ub i = Some (BNum b) -> ext_le a b.

(** Requests whose inequality bounds are numbers. *)
Definition numeric_arg (a : option barg) : Prop :=
  match a with Some (AVec l) => forall b, In b l -> exists x, b = BNum x | _ => True end.
Definition numeric_op (o : nlp_op) : Prop :=
  match o with NIncludeInequality _ _ lb ub => numeric_arg lb /\ numeric_arg ub | _ => True end.

(** A vector of bounds that mentions one of the symbols. *)
Definition bound_mentions (a : option barg) (l : list sym) : Prop :=
  exists v e x, a = Some (AVec v) /\ In (BExp e) v /\ In x (symbols e) /\ In x l.

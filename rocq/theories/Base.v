(** Shared vocabulary of the model: exceptions as values, results, state
    transformers that keep the state when an exception is raised, and the few
    list operations of Python and casadi that everything else uses. *)
From Coq Require Export List Arith ZArith Bool Lia.
Export ListNotations.

(** The Python exception classes that the modelled code raises.  [AnyException]
    is a bare [Exception]; [CasadiError] is the RuntimeError or
    NotImplementedError that casadi raises by itself for unusable arguments. *)
Inductive exc : Type :=
| ValueError | KeyError | IndexError | TypeError | AssertionError
| AttributeError | NotImplementedErr | UnboundLocalError | ZeroDivisionErr
| TimeoutErr | AnyException | CasadiError.

(** Result of a Python call: a value or a raised exception. *)
Inductive res (A : Type) : Type :=
| Ok (a : A)
| Raise (e : exc).
Arguments Ok {A} a.
Arguments Raise {A} e.

Definition bind {A B : Type} (r : res A) (f : A -> res B) : res B :=
  match r with Ok a => f a | Raise e => Raise e end.

Declare Scope res_scope.
Notation "x <- r ;; k" := (bind r (fun x => k))
  (at level 61, r at next level, right associativity) : res_scope.

Definition is_ok {A : Type} (r : res A) : bool :=
  match r with Ok _ => true | Raise _ => false end.

(** A method call on a mutable object: the state after the call (also when the
    call raised) and its result. *)
Definition cmd (S A : Type) : Type := S -> S * res A.

Definition cret {S A : Type} (a : A) : cmd S A := fun s => (s, Ok a).
Definition craise {S A : Type} (e : exc) : cmd S A := fun s => (s, Raise e).
Definition cbind {S A B : Type} (m : cmd S A) (f : A -> cmd S B) : cmd S B :=
  fun s => match m s with
           | (s', Ok a) => f a s'
           | (s', Raise e) => (s', Raise e)
           end.
Definition cmodify {S : Type} (f : S -> S) : cmd S unit := fun s => (f s, Ok tt).
(** Run a pure computation that may raise and store what it returns. *)
Definition cset {S A : Type} (r : S -> res A) (put : A -> S -> S) : cmd S unit :=
  fun s => match r s with
           | Ok a => (put a s, Ok tt)
           | Raise e => (s, Raise e)
           end.
(** [if bad: raise e]. *)
Definition cguard {S : Type} (bad : S -> bool) (e : exc) : cmd S unit :=
  fun s => if bad s then (s, Raise e) else (s, Ok tt).

Declare Scope cmd_scope.
Notation "x <~ m ;; k" := (cbind m (fun x => k))
  (at level 61, m at next level, right associativity) : cmd_scope.
Notation "m ;;; k" := (cbind m (fun _ => k))
  (at level 61, right associativity) : cmd_scope.

(** Run a list of calls one after another, each caught on its own (a user that
    catches every exception and goes on). *)
Definition run_caught {S O A : Type} (step : O -> cmd S A) (ops : list O) (s : S) : S :=
  fold_left (fun s o => fst (step o s)) ops s.

(** Run a list of calls until one raises. *)
Fixpoint run_all {S O A : Type} (step : O -> cmd S A) (ops : list O) (s : S)
  : S * res unit :=
  match ops with
  | [] => (s, Ok tt)
  | o :: ops' => match step o s with
                 | (s', Ok _) => run_all step ops' s'
                 | (s', Raise e) => (s', Raise e)
                 end
  end.

(** Python's [enumerate]. *)
Definition enumerate {A : Type} (l : list A) : list (nat * A) :=
  combine (seq 0 (length l)) l.

(** [vector[list_of_indices]] for indices that are all in range. *)
Definition gather {A : Type} (l : list A) (idx : list nat) : list A :=
  flat_map (fun i => match nth_error l i with Some a => [a] | None => [] end) idx.

(** Membership test [x in l] for a given equality. *)
Definition memb {A : Type} (eqb : A -> A -> bool) (x : A) (l : list A) : bool :=
  existsb (eqb x) l.

(** Python dictionaries: association lists in insertion order. *)
Definition dict (K V : Type) : Type := list (K * V).

Section Dict.
  Context {K V : Type} (eqb : K -> K -> bool).

  Fixpoint dget (k : K) (d : dict K V) : option V :=
    match d with
    | [] => None
    | (k', v) :: d' => if eqb k k' then Some v else dget k d'
    end.

  Definition dhas (k : K) (d : dict K V) : bool :=
    match dget k d with Some _ => true | None => false end.

  (** [d[k] = v]: overwrite in place or append. *)
  Fixpoint dset (k : K) (v : V) (d : dict K V) : dict K V :=
    match d with
    | [] => [(k, v)]
    | (k', v') :: d' => if eqb k k' then (k', v) :: d' else (k', v') :: dset k v d'
    end.

  (** [del d[k]]. *)
  Definition ddel (k : K) (d : dict K V) : res (dict K V) :=
    if dhas k d then Ok (filter (fun kv => negb (eqb k (fst kv))) d)
    else Raise KeyError.

  Definition dkeys (d : dict K V) : list K := map fst d.
  Definition dvals (d : dict K V) : list V := map snd d.

  (** [{**d, **e}]. *)
  Definition dupdate (d e : dict K V) : dict K V :=
    fold_left (fun acc kv => dset (fst kv) (snd kv) acc) e d.
End Dict.

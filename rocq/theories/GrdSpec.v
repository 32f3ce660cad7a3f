(** Specification of degree and number of elements of augmented Lagrangian methods.  The
    calls of the user are those of the model. *)
From Verif Require Import Base GrdModel.
Local Open Scope list_scope.
Local Open Scope nat_scope.

(** What a user reads from method [i]: the grid of its options, the one of its multipliers
    and the one of the solver it wraps. *)
Record seen := mkSeen { sn_options : grid; sn_multipliers : grid; sn_solver : grid }.
Definition seen_at (w : world) (i : nat) : option seen :=
  match nth_error (w_methods w) i with
  | None => None
  | Some m => match nth_error (w_options w) (me_options m) with
              | None => None
              | Some o => Some (mkSeen o (me_nu m) (me_solver m))
              end
  end.

(** The contents of what is given to the constructor. *)
Definition dict_given (w : world) (g : given_dict) : option entries :=
  match g with DNew e => Some e | DNamed k => nth_error (w_dicts w) k end.
Definition either (v : option nat) (n : nat) : nat := match v with Some x => x | None => n end.
Definition options_given (w : world) (o : given_options) : option grid :=
  match o with
  | ONew e => Some (mkGrid (either (e_degree e) 3) (either (e_elements e) 20))
  | ONamed k => nth_error (w_options w) k
  | OMethod i => match nth_error (w_methods w) i with
                 | Some m => nth_error (w_options w) (me_options m)
                 | None => None
                 end
  end.

(** The entries of the dictionary and, where it has none, the options. *)
Definition chosen (d : entries) (o : grid) : grid :=
  mkGrid (either (e_degree d) (g_degree o)) (either (e_elements d) (g_elements o)).
(** The dictionary and the keyword arguments ask for different values. *)
Definition differ (a b : option nat) : Prop := exists x y, a = Some x /\ b = Some y /\ x <> y.
Definition conflict (d kw : entries) : Prop :=
  differ (e_degree d) (e_degree kw) \/ differ (e_elements d) (e_elements kw).
Definition both (g : grid) : entries := mkEntries (Some (g_degree g)) (Some (g_elements g)).

(** Worlds that calls lead to. *)
Definition reached (w : world) : Prop := exists cs, w = after cs nothing.

(** The call names neither method [i] nor its options, which are at place [k]. *)
Definition leaves_alone (i k : nat) (c : call) : Prop :=
  match c with
  | AWriteOptions k' _ _ => k' <> k
  | AWriteMethod i' _ _ | AWriteSolver i' _ _ => i' <> i
  | AMethod _ (ONamed k') _ _ _ => k' <> k
  | AMethod _ (OMethod i') _ _ _ => i' <> i
  | _ => True
  end.
(** The call does not write to dictionary [k] by the user's own hand. *)
Definition keeps_dict (k : nat) (c : call) : Prop :=
  match c with AWriteDict k' _ _ => k' <> k | _ => True end.

(** The place of the options that are given, if they are those of somebody already. *)
Definition named_options (w : world) (o : given_options) : option nat :=
  match o with
  | ONew _ => None
  | ONamed k => Some k
  | OMethod i => match nth_error (w_methods w) i with Some m => Some (me_options m) | None => None end
  end.
(** Method [j] has these options. *)
Definition shares (w : world) (o : given_options) (j : nat) : bool :=
  match nth_error (w_methods w) j, named_options w o with
  | Some m, Some k => Nat.eqb (me_options m) k
  | _, _ => false
  end.

(** Model of how degree and number of elements reach the augmented Lagrangian method and the
    solver it wraps: methods/augmented_lagrangian.py ("al") and
    methods/network/distributedaugmetedlagrangian.py ("dal").  Dictionaries and options are
    objects, named by their places. *)
From Verif Require Import Base.
Local Open Scope list_scope.
Local Open Scope nat_scope.
Local Open Scope cmd_scope.

(** al:240: the two attributes that have to agree. *)
Inductive attribute := Degree | Elements.
(** al:56-59: these attributes of an [AugmentedLagrangianOptions] and of a solver. *)
Record grid := mkGrid { g_degree : nat; g_elements : nat }.
(** The entries of these names in a dictionary of options or among keyword arguments. *)
Record entries := mkEntries { e_degree : option nat; e_elements : option nat }.

Definition value (a : attribute) (g : grid) : nat :=
  match a with Degree => g_degree g | Elements => g_elements g end.
Definition set_value (a : attribute) (n : nat) (g : grid) : grid :=
  match a with Degree => mkGrid n (g_elements g) | Elements => mkGrid (g_degree g) n end.
Definition entry (a : attribute) (e : entries) : option nat :=
  match a with Degree => e_degree e | Elements => e_elements e end.
Definition set_entry (a : attribute) (v : option nat) (e : entries) : entries :=
  match a with Degree => mkEntries v (e_elements e) | Elements => mkEntries (e_degree e) v end.

(** al:58-59: the defaults of [AugmentedLagrangianOptions]. *)
Definition al_defaults : grid := mkGrid 3 20.
(** [AugmentedLagrangianOptions(options as keywords)]. *)
Definition options_from (e : entries) : grid :=
  mkGrid (match e_degree e with Some d => d | None => g_degree al_defaults end)
         (match e_elements e with Some n => n | None => g_elements al_defaults end).
(** smb:30-32, 80-81: the solver takes the entries as attributes; else those of its class. *)
Definition solver_defaults : grid := mkGrid 3 10.
Definition solver_from (e : entries) : grid :=
  mkGrid (match e_degree e with Some d => d | None => g_degree solver_defaults end)
         (match e_elements e with Some n => n | None => g_elements solver_defaults end).

(** A method: the place of its options, the grid of its multipliers (al:224-237, 375, 395)
    and the attributes of the solver it wraps. *)
Record meth := mkMeth { me_options : nat; me_nu : grid; me_solver : grid }.
Record world := mkWorld { w_dicts : list entries; w_options : list grid; w_methods : list meth }.

Definition put_at {A : Type} (i : nat) (a : A) (l : list A) : list A := firstn i l ++ a :: skipn (S i) l.
Definition lookup {A : Type} (get : world -> list A) (i : nat) : cmd world A :=
  fun w => match nth_error (get w) i with Some a => (w, Ok a) | None => (w, Raise IndexError) end.
Definition put_dict (k : nat) (e : entries) : cmd world unit :=
  cmodify (fun w => mkWorld (put_at k e (w_dicts w)) (w_options w) (w_methods w)).
Definition put_options (k : nat) (g : grid) : cmd world unit :=
  cmodify (fun w => mkWorld (w_dicts w) (put_at k g (w_options w)) (w_methods w)).
Definition put_method (i : nat) (m : meth) : cmd world unit :=
  cmodify (fun w => mkWorld (w_dicts w) (w_options w) (put_at i m (w_methods w))).
Definition make_dict (e : entries) : cmd world nat :=
  fun w => (mkWorld (w_dicts w ++ [e]) (w_options w) (w_methods w), Ok (length (w_dicts w))).
Definition make_options (g : grid) : cmd world nat :=
  fun w => (mkWorld (w_dicts w) (w_options w ++ [g]) (w_methods w), Ok (length (w_options w))).

(** What is given for [solver_options]: nothing or a new dictionary, or one that exists. *)
Inductive given_dict := DNew (e : entries) | DNamed (k : nat).
(** What is given for [options]: a dictionary (its entries are read), an object, or the
    options of a method. *)
Inductive given_options := ONew (e : entries) | ONamed (k : nat) | OMethod (i : nat).

Definition dict_place (g : given_dict) : cmd world nat :=
  match g with DNew e => make_dict e | DNamed k => lookup w_dicts k ;;; cret k end.
Definition options_place (o : given_options) : cmd world nat :=
  match o with
  | ONew e => make_options (options_from e)
  | ONamed k => lookup w_options k ;;; cret k
  | OMethod i => m <~ lookup w_methods i ;; cret (me_options m)
  end.

Definition outcome (e : option exc) : cmd world unit :=
  match e with Some e => craise e | None => cret tt end.

(** al:240-259 for one attribute: [dk] and [ok] are the places of the dictionary and of the
    options, [kw] the keyword arguments. *)
Definition agree (dk ok : nat) (kw : entries) (a : attribute) : cmd world unit :=
  d <~ lookup w_dicts dk ;;
  o <~ lookup w_options ok ;;
  match entry a d, entry a kw with
  | Some x, Some y => if x =? y then put_options ok (set_value a x o) else craise ValueError
  | Some x, None => put_options ok (set_value a x o)
  | None, _ => put_dict dk (set_entry a (Some (value a o)) d)
  end.

(** al:120-264 [__init__].  [early]: what the relaxation raises; [late]: what the class of
    the solver raises. *)
Definition new_method (g : given_dict) (o : given_options) (kw : entries) (early late : option exc) : cmd world nat :=
  dk <~ dict_place g ;;
  ok <~ options_place o ;;
  outcome early ;;;
  nu <~ lookup w_options ok ;;
  agree dk ok kw Degree ;;;
  agree dk ok kw Elements ;;;
  d <~ lookup w_dicts dk ;;
  outcome late ;;;
  (fun w => (mkWorld (w_dicts w) (w_options w) (w_methods w ++ [mkMeth ok nu (solver_from d)]),
             Ok (length (w_methods w)))).

(** dal:663-706 [_create_solution_methods]: one method after the other, all with the
    dictionary of the distributed method and with new options made of its own; [own] are the
    degree and number of elements of the distributed method.  A node is given by what its
    construction raises. *)
Definition node_method (dk : nat) (own : grid) (x : option exc * option exc) : cmd world nat :=
  new_method (DNamed dk) (ONew (mkEntries (Some (g_degree own)) (Some (g_elements own))))
    (mkEntries None None) (fst x) (snd x).
Definition create_nodes (dk : nat) (own : grid) (nodes : list (option exc * option exc)) : cmd world unit :=
  run_all (node_method dk own) nodes.

(** What a user does: make and change dictionaries and options, make methods, change an
    attribute of a method (al:93-118: it is one of its options) or of its solver, solve a
    network. *)
Inductive call :=
| ADict (e : entries) | AWriteDict (k : nat) (a : attribute) (v : option nat)
| AOptions (e : entries) | AWriteOptions (k : nat) (a : attribute) (n : nat)
| AMethod (g : given_dict) (o : given_options) (kw : entries) (early late : option exc)
| AWriteMethod (i : nat) (a : attribute) (n : nat)
| AWriteSolver (i : nat) (a : attribute) (n : nat)
| ANodes (dk : nat) (own : grid) (nodes : list (option exc * option exc)).

Definition write_options (k : nat) (a : attribute) (n : nat) : cmd world unit :=
  o <~ lookup w_options k ;; put_options k (set_value a n o).

Definition step (c : call) : cmd world unit :=
  match c with
  | ADict e => make_dict e ;;; cret tt
  | AWriteDict k a v => d <~ lookup w_dicts k ;; put_dict k (set_entry a v d)
  | AOptions e => make_options (options_from e) ;;; cret tt
  | AWriteOptions k a n => write_options k a n
  | AMethod g o kw early late => new_method g o kw early late ;;; cret tt
  | AWriteMethod i a n => m <~ lookup w_methods i ;; write_options (me_options m) a n
  | AWriteSolver i a n =>
      m <~ lookup w_methods i ;;
      put_method i (mkMeth (me_options m) (me_nu m) (set_value a n (me_solver m)))
  | ANodes dk own nodes => create_nodes dk own nodes
  end.

(** A history; the user catches what is raised and goes on. *)
Definition nothing : world := mkWorld [] [] [].
Definition after (cs : list call) (w : world) : world := run_caught step cs w.

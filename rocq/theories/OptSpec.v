(** Specification of the solver options: every solution method and every optimisation
    problem has options of its own.  The calls of the user are those of the model. *)
From Coq Require Import String.
From Verif Require Import Base OptModel.
Local Open Scope list_scope.

Section Ideal.
  Variable V : Type.
  Let table := dict string V.

  (** The value of an entry. *)
  Definition entry (k : string) (d : table) : option V := dget String.eqb k d.

  (** The options of a problem are its own or those of the method that created it. *)
  Inductive options_of := Own (d : table) | OfMethod (i : nat).
  Record ideal_problem := mkIdealProblem { ip_options : options_of; ip_solver : option table }.
  Record ideal_method := mkIdealMethod { im_options : table; im_problem : option nat }.
  Record ideal := mkIdeal
    { i_config : table; i_dicts : list table; i_methods : list ideal_method; i_problems : list ideal_problem }.

  (** The entries of the user and, for all other keys, those of the configuration. *)
  Definition with_defaults (config d : table) : table :=
    d ++ filter (fun kv => negb (existsb (String.eqb (fst kv)) (map fst d))) config.
  (** One entry changed, the others kept. *)
  Definition written (k : string) (v : V) (d : table) : table :=
    if existsb (String.eqb k) (map fst d)
    then map (fun kv => if String.eqb k (fst kv) then (fst kv, v) else kv) d
    else d ++ [(k, v)].
  Definition change {A : Type} (i : nat) (f : A -> A) (l : list A) : list A :=
    map (fun ia => if Nat.eqb (fst ia) i then f (snd ia) else snd ia) (combine (seq 0 (length l)) l).

  Definition options_at (o : options_of) (s : ideal) : table :=
    match o with
    | Own d => d
    | OfMethod i => match nth_error (i_methods s) i with Some m => im_options m | None => [] end
    end.

  Definition on_method i f s := mkIdeal (i_config s) (i_dicts s) (change i f (i_methods s)) (i_problems s).
  Definition on_problem j f s := mkIdeal (i_config s) (i_dicts s) (i_methods s) (change j f (i_problems s)).
  Definition write_method k v i : ideal -> ideal :=
    on_method i (fun m => mkIdealMethod (written k v (im_options m)) (im_problem m)).

  (** The program of a new problem belongs to its method. *)
  Definition ideal_create (i : nat) (s : ideal) : ideal :=
    on_method i (fun m => mkIdealMethod (im_options m) (Some (length (i_problems s))))
      (mkIdeal (i_config s) (i_dicts s) (i_methods s) (i_problems s ++ [mkIdealProblem (OfMethod i) None])).

  (** The first call of the solver fixes its options. *)
  Definition ideal_solve (j : nat) (s : ideal) : ideal * res (option table) :=
    match nth_error (i_problems s) j with
    | None => (s, Raise IndexError)
    | Some p =>
        match ip_solver p with
        | Some d => (s, Ok (Some d))
        | None => let d := options_at (ip_options p) s in
                  (on_problem j (fun p => mkIdealProblem (ip_options p) (Some d)) s, Ok (Some d))
        end
    end.

  Definition known (n : name) (s : ideal) : bool :=
    match n with
    | NConfig => true
    | NMethod i => Nat.ltb i (length (i_methods s))
    | NProblem j => Nat.ltb j (length (i_problems s))
    | NDict k => Nat.ltb k (length (i_dicts s))
    end.
  Definition ideal_read (n : name) (s : ideal) : table :=
    match n with
    | NConfig => i_config s
    | NMethod i => options_at (OfMethod i) s
    | NProblem j => match nth_error (i_problems s) j with Some p => options_at (ip_options p) s | None => [] end
    | NDict k => nth k (i_dicts s) []
    end.
  Definition ideal_write (n : name) (k : string) (v : V) (s : ideal) : ideal :=
    match n with
    | NConfig => mkIdeal (written k v (i_config s)) (i_dicts s) (i_methods s) (i_problems s)
    | NMethod i => write_method k v i s
    | NProblem j =>
        match nth_error (i_problems s) j with
        | Some (mkIdealProblem (OfMethod i) _) => write_method k v i s
        | _ => on_problem j (fun p => mkIdealProblem (Own (written k v (options_at (ip_options p) s))) (ip_solver p)) s
        end
    | NDict q => mkIdeal (i_config s) (change q (written k v) (i_dicts s)) (i_methods s) (i_problems s)
    end.

  (** The effect of a call of those below. *)
  Definition ideal_step (c : call V) (s : ideal) : ideal * res (option table) :=
    match c with
    | ADict d => (mkIdeal (i_config s) (i_dicts s ++ [d]) (i_methods s) (i_problems s), Ok None)
    | AMethod (Some (New d)) =>
        (mkIdeal (i_config s) (i_dicts s) (i_methods s ++ [mkIdealMethod (with_defaults (i_config s) d) None]) (i_problems s), Ok None)
    | AProblem (Some (New d)) =>
        (mkIdeal (i_config s) (i_dicts s) (i_methods s) (i_problems s ++ [mkIdealProblem (Own d) None]), Ok None)
    | AAssignProblem j (New d) =>
        if Nat.ltb j (length (i_problems s))
        then (on_problem j (fun p => mkIdealProblem (Own d) (ip_solver p)) s, Ok None) else (s, Raise IndexError)
    | AWrite n k v => if known n s then (ideal_write n k v s, Ok None) else (s, Raise IndexError)
    | ARead n => if known n s then (s, Ok (Some (ideal_read n s))) else (s, Raise IndexError)
    | ACreate i =>
        if Nat.ltb i (length (i_methods s)) then (ideal_create i s, Ok None) else (s, Raise IndexError)
    | ASolve i =>
        match nth_error (i_methods s) i with
        | None => (s, Raise IndexError)
        | Some m => match im_problem m with
                    | Some j => ideal_solve j s
                    | None => ideal_solve (length (i_problems s)) (ideal_create i s)
                    end
        end
    | ASolveProblem j => ideal_solve j s
    | _ => (s, Ok None)
    end.
  Fixpoint ideal_history (cs : list (call V)) (s : ideal) : list (res (option table)) :=
    match cs with [] => [] | c :: cs' => let (s', r) := ideal_step c s in r :: ideal_history cs' s' end.
  Definition ideal_start (config : table) : ideal := mkIdeal config [] [] [].

  (** Calls in which methods and problems get new dictionaries, and those of problems are
      not empty. *)
  Definition gives_own (c : call V) : Prop :=
    match c with
    | AMethod (Some (New _)) | AAssignProblem _ (New _) => True
    | AProblem (Some (New d)) => d <> []
    | AMethod _ | AProblem _ | AAssignMethod _ _ | AAssignProblem _ _ => False
    | _ => True
    end.
  (** A dictionary has every key once. *)
  Definition keyed (d : table) : Prop := NoDup (map fst d).
  Definition keyed_call (c : call V) : Prop :=
    match c with
    | ADict d | AMethod (Some (New d)) | AProblem (Some (New d)) | AAssignMethod _ (New d) | AAssignProblem _ (New d) => keyed d
    | _ => True
    end.

  (** A state that a history leads to, and what the next call shows. *)
  Definition reached (config : table) (w : world V) : Prop :=
    exists cs, w = fst (history cs (imported config)).
  Definition shown (c : call V) (w : world V) : res (option table) := snd (step c w).
  Definition after (cs : list (call V)) (w : world V) : world V := fst (history cs w).
  Definition assigns_method (i : nat) (c : call V) : Prop := exists g, c = AAssignMethod i g.
End Ideal.
Arguments entry {V}. Arguments with_defaults {V}. Arguments ideal_history {V}. Arguments ideal_start {V}. Arguments gives_own {V}.
Arguments keyed {V}. Arguments keyed_call {V}. Arguments reached {V}. Arguments shown {V}. Arguments after {V}. Arguments assigns_method {V}.

(** The dictionary that a new method is given; without one it is the default of the class. *)
Definition options_given {V : Type} (g : option (given V)) (w : world V) (d : dict string V) : Prop :=
  match g with
  | Some (New d') => d' = d
  | Some (Named n) => shown (ARead n) w = Ok (Some d)
  | None => look w default_place = d
  end.

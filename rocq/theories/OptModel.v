(** Model of the solver options: yaocptool/methods/base/solutionmethodsbase.py (below: smb),
    yaocptool/optimization/nonlinear_problem.py (nlp), abstract_optimization_problem.py
    (aop) and yaocptool/config.py.  Dictionaries are objects: names refer to places. *)
From Coq Require Import String.
From Verif Require Import Base.
Local Open Scope list_scope.
Local Open Scope cmd_scope.

Section Options.
  (** The values of options. *)
  Variable V : Type.
  Definition table : Type := dict string V.

  (** smb:70, 286-288: what a solution method keeps: the place of its options and, once it
      is created, the number of its optimisation problem. *)
  Record meth := mkMeth { me_opts : nat; me_problem : option nat }.
  (** aop:50-52: what an optimisation problem keeps: the place of its options and, once the
      solver is created, the options it was created with (casadi makes a copy). *)
  Record prob := mkProb { pr_opts : nat; pr_solver : option table }.
  (** The dictionaries by place, the places of the dictionaries that the user has made, the
      solution methods and the optimisation problems. *)
  Record world := mkWorld
    { w_heap : list table; w_dicts : list nat; w_methods : list meth; w_problems : list prob }.

  Definition set_heap h w := mkWorld h (w_dicts w) (w_methods w) (w_problems w).
  Definition set_dicts d w := mkWorld (w_heap w) d (w_methods w) (w_problems w).
  Definition set_methods m w := mkWorld (w_heap w) (w_dicts w) m (w_problems w).
  Definition set_problems p w := mkWorld (w_heap w) (w_dicts w) (w_methods w) p.

  (** smb:42: the default value of nlpsol_opts is made once, when the class is defined. *)
  Definition default_place : nat := 0.
  (** config.py:11-27: config.SOLVER_OPTIONS["nlpsol_options"]. *)
  Definition config_place : nat := 1.
  (** After importing the library. *)
  Definition imported (config : table) : world := mkWorld [[]; config] [] [] [].

  Definition put_at {A : Type} (i : nat) (a : A) (l : list A) : list A := firstn i l ++ a :: skipn (S i) l.
  Definition look (w : world) (l : nat) : table := nth l (w_heap w) [].

  (** How the user names a dictionary: config.SOLVER_OPTIONS["nlpsol_options"],
      method.nlpsol_opts, problem.solver_options or a variable of their own. *)
  Inductive name := NConfig | NMethod (i : nat) | NProblem (j : nat) | NDict (k : nat).
  (** What the user gives for options: a new dictionary, or one with a name. *)
  Inductive given := New (d : table) | Named (n : name).

  Definition lookup {A : Type} (l : list A) (i : nat) : cmd world A :=
    fun w => match nth_error l i with Some a => (w, Ok a) | None => (w, Raise IndexError) end.
  Definition place (n : name) : cmd world nat :=
    fun w => match n with
             | NConfig => (w, Ok config_place)
             | NMethod i => (m <~ lookup (w_methods w) i ;; cret (me_opts m)) w
             | NProblem j => (p <~ lookup (w_problems w) j ;; cret (pr_opts p)) w
             | NDict k => lookup (w_dicts w) k w
             end.
  Definition make (d : table) : cmd world nat :=
    fun w => (set_heap (w_heap w ++ [d]) w, Ok (length (w_heap w))).
  Definition place_of (g : given) : cmd world nat :=
    match g with New d => make d | Named n => place n end.
  Definition place_or (default : nat) (g : option given) : cmd world nat :=
    match g with Some g => place_of g | None => cret default end.

  (** smb:83-85: entries of the configuration that are missing are filled in, in place. *)
  Definition filled (config d : table) : table :=
    fold_left (fun acc kv => if dhas String.eqb (fst kv) acc then acc else dset String.eqb (fst kv) (snd kv) acc) config d.
  Definition fill (l : nat) : cmd world unit :=
    cmodify (fun w => set_heap (put_at l (filled (look w config_place) (look w l)) (w_heap w)) w).

  (** smb:34-100: a new solution method. *)
  Definition new_method (g : option given) : cmd world unit :=
    l <~ place_or default_place g ;;
    fill l ;;;
    cmodify (fun w => set_methods (w_methods w ++ [mkMeth l None]) w).

  (** aop:50, nlp:24-26: a new nonlinear program; empty options become the configuration
      itself. *)
  Definition new_problem (g : option given) : cmd world unit :=
    l <~ place_or config_place g ;;
    cmodify (fun w =>
      set_problems (w_problems w ++ [mkProb (match look w l with [] => config_place | _ => l end) None]) w).

  Definition set_problem_opts (j l : nat) : cmd world unit :=
    fun w => (p <~ lookup (w_problems w) j ;;
              cmodify (fun w => set_problems (put_at j (mkProb l (pr_solver p)) (w_problems w)) w)) w.

  (** smb:246-288 [create_optimization_problem]: the transcription makes a new nonlinear
      program, which then gets the options of the method. *)
  Definition create (i : nat) : cmd world nat :=
    fun w =>
      (m <~ lookup (w_methods w) i ;;
       let j := length (w_problems w) in
       new_problem None ;;;
       set_problem_opts j (me_opts m) ;;;
       cmodify (fun w => set_methods (put_at i (mkMeth (me_opts m) (Some j)) (w_methods w)) w) ;;;
       cret j) w.

  (** aop:395-403 [get_solver], 430-466 [solve]: the solver is made at the first call and
      kept.  Gives the options of the solver. *)
  Definition solve_problem (j : nat) : cmd world table :=
    fun w =>
      (p <~ lookup (w_problems w) j ;;
       match pr_solver p with
       | Some d => cret d
       | None => let d := look w (pr_opts p) in
                 cmodify (fun w => set_problems (put_at j (mkProb (pr_opts p) (Some d)) (w_problems w)) w) ;;;
                 cret d
       end) w.

  (** smb:290-314 [call_solver]: the optimisation problem is created if there is none. *)
  Definition solve_method (i : nat) : cmd world table :=
    fun w =>
      (m <~ lookup (w_methods w) i ;;
       j <~ match me_problem m with Some j => cret j | None => create i end ;;
       solve_problem j) w.

  (** What a user does: make a dictionary, a method or a problem; write an entry; assign
      options; create the problem of a method; solve; read. *)
  Inductive call :=
  | ADict (d : table) | AMethod (g : option given) | AProblem (g : option given)
  | AWrite (n : name) (k : string) (v : V)
  | AAssignMethod (i : nat) (g : given) | AAssignProblem (j : nat) (g : given)
  | ACreate (i : nat) | ASolve (i : nat) | ASolveProblem (j : nat) | ARead (n : name).

  (** What the call shows: the options of the solver, or those that are read. *)
  Definition step (c : call) : cmd world (option table) :=
    match c with
    | ADict d => l <~ make d ;; cmodify (fun w => set_dicts (w_dicts w ++ [l]) w) ;;; cret None
    | AMethod g => new_method g ;;; cret None
    | AProblem g => new_problem g ;;; cret None
    | AWrite n k v =>
        l <~ place n ;;
        cmodify (fun w => set_heap (put_at l (dset String.eqb k v (look w l)) (w_heap w)) w) ;;; cret None
    | AAssignMethod i g =>
        l <~ place_of g ;;
        (fun w => (m <~ lookup (w_methods w) i ;;
                   cmodify (fun w => set_methods (put_at i (mkMeth l (me_problem m)) (w_methods w)) w)) w) ;;;
        cret None
    | AAssignProblem j g => l <~ place_of g ;; set_problem_opts j l ;;; cret None
    | ACreate i => create i ;;; cret None
    | ASolve i => d <~ solve_method i ;; cret (Some d)
    | ASolveProblem j => d <~ solve_problem j ;; cret (Some d)
    | ARead n => fun w => (l <~ place n ;; cret (Some (look w l))) w
    end.

  (** A history, with what every call shows or raises. *)
  Fixpoint history (cs : list call) (w : world) : world * list (res (option table)) :=
    match cs with
    | [] => (w, [])
    | c :: cs' => let (w', r) := step c w in let (w'', rs) := history cs' w' in (w'', r :: rs)
    end.
End Options.
Arguments mkProb {V}. Arguments pr_opts {V}. Arguments pr_solver {V}.
Arguments mkWorld {V}. Arguments w_heap {V}. Arguments w_dicts {V}. Arguments w_methods {V}. Arguments w_problems {V}.
Arguments imported {V}. Arguments look {V}. Arguments New {V}. Arguments Named {V}. Arguments filled {V}.
Arguments ADict {V}. Arguments AMethod {V}. Arguments AProblem {V}. Arguments AWrite {V}. Arguments AAssignMethod {V}.
Arguments AAssignProblem {V}. Arguments ACreate {V}. Arguments ASolve {V}. Arguments ASolveProblem {V}. Arguments ARead {V}.
Arguments step {V}. Arguments history {V}.

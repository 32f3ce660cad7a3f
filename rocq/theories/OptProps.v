(** C83: whose the solver options are. *)
From Coq Require Import String.
From Verif Require Import Base OptModel OptSpec OptProofs OptMoreProofs.
Local Open Scope list_scope.
Local Open Scope nat_scope.

(** If every method and every problem is given a dictionary of its own, every history shows
    what it shows when options belong to methods and problems. *)
Theorem C83_own_options : forall (V : Type) (config : dict string V) cs,
    keyed config -> Forall gives_own cs -> Forall keyed_call cs ->
    snd (history cs (imported config)) = ideal_history cs (ideal_start config).
Proof. exact w_C83_own_options. Qed.
Print Assumptions C83_own_options.

(** A new method has the options it is given and, for all other keys, those of the
    configuration at this time. *)
Theorem C83_filled : forall (V : Type) (config : dict string V) w g w' r d c, reached config w -> step (AMethod g) w = (w', Ok r) ->
    options_given g w d -> shown (ARead NConfig) w = Ok (Some c) ->
    exists d', shown (ARead (NMethod (length (w_methods w)))) w' = Ok (Some d') /\
      forall k, entry k d' = match entry k d with Some v => Some v | None => entry k c end.
Proof. exact w_C83_filled. Qed.
Print Assumptions C83_filled.

(** The first call of the solver of a problem fixes its options: whatever happens later, all
    further calls use them. *)
Theorem C83_solver_kept : forall (V : Type) (config : dict string V) w j d cs,
    reached config w -> shown (ASolveProblem j) w = Ok (Some d) ->
    shown (ASolveProblem j) (after (ASolveProblem j :: cs) w) = Ok (Some d).
Proof. exact w_C83_solver_kept. Qed.
Print Assumptions C83_solver_kept.
(** The same for a method, until its problem is created again. *)
Theorem C83_method_kept : forall (V : Type) (config : dict string V) w i d cs,
    reached config w -> shown (ASolve i) w = Ok (Some d) -> ~ In (ACreate i) cs ->
    shown (ASolve i) (after (ASolve i :: cs) w) = Ok (Some d).
Proof. exact w_C83_method_kept. Qed.
Print Assumptions C83_method_kept.
(** Options that are assigned to a method after its problem was created have no effect. *)
Theorem C83_assigned_late : forall (V : Type) (config : dict string V) w i r g,
    reached config w -> shown (ACreate i) w = Ok r ->
    shown (ASolve i) (after [ACreate i; AAssignMethod i g] w) = shown (ASolve i) (after [ACreate i] w).
Proof. exact w_C83_assigned_late. Qed.
Print Assumptions C83_assigned_late.

(** Any two methods without given options have the same options at all times, until other
    options are assigned to one of them. *)
Theorem C83_defaults_shared : forall (V : Type) (config : dict string V) w cs cs', reached config w ->
    let i := length (w_methods w) in
    let w2 := after (AMethod None :: cs) w in
    let i' := length (w_methods w2) in
    let w3 := after (AMethod None :: cs') w2 in
    (forall c, In c (cs ++ AMethod None :: cs') -> ~ assigns_method i c) -> (forall c, In c cs' -> ~ assigns_method i' c) ->
    exists d, shown (ARead (NMethod i)) w3 = Ok (Some d) /\ shown (ARead (NMethod i')) w3 = Ok (Some d).
Proof. exact w_C83_defaults_shared. Qed.
Print Assumptions C83_defaults_shared.
(** So the options of such methods are not their own: an option set for one method reaches
    the solver of the other. *)
Theorem C83_independent_refuted : forall (V : Type) (config : dict string V) k v, exists d,
    shown (ASolve 1) (after [AMethod None; AMethod None; AWrite (NMethod 0) k v] (imported config)) = Ok (Some d) /\ entry k d = Some v.
Proof. exact w_C83_independent. Qed.
Print Assumptions C83_independent_refuted.
(** A change of the configuration does not reach new methods without given options, if
    there has been one before. *)
Theorem C83_configuration_refuted : forall (V : Type) (config : dict string V) k v v', entry k config = Some v -> exists d,
    shown (ARead (NMethod 1)) (after [AMethod None; AWrite NConfig k v'; AMethod None] (imported config)) = Ok (Some d) /\ entry k d = Some v.
Proof. exact w_C83_config_changed. Qed.
Print Assumptions C83_configuration_refuted.
(** An option set for a nonlinear program without given options changes the configuration,
    and so reaches the solvers of all later methods. *)
Theorem C83_problem_options_refuted : forall (V : Type) (config : dict string V) k v, exists d d',
    shown (ARead NConfig) (after [AProblem None; AWrite (NProblem 0) k v] (imported config)) = Ok (Some d) /\ entry k d = Some v /\
    shown (ASolve 0) (after [AProblem None; AWrite (NProblem 0) k v; AMethod (Some (New []))] (imported config)) = Ok (Some d') /\ entry k d' = Some v.
Proof. exact w_C83_problem_options. Qed.
Print Assumptions C83_problem_options_refuted.
(** The dictionary of the user is changed. *)
Theorem C83_dictionary_refuted : forall (V : Type) (config d : dict string V) k v, entry k config = Some v -> entry k d = None -> exists d',
    shown (ARead (NDict 0)) (after [ADict d; AMethod (Some (Named (NDict 0)))] (imported config)) = Ok (Some d') /\ entry k d' = Some v.
Proof. exact w_C83_dictionary. Qed.
Print Assumptions C83_dictionary_refuted.

(** Two methods with options of their own, a change of the configuration and a change
    between two calls of a solver: each call shows the options expected. *)
Example own_options_used :
  let config := [("max_iter"%string, 1000); ("print"%string, 0)] in
  let cs := [AMethod (Some (New [("max_iter"%string, 10)])); AWrite NConfig "print"%string 5; AMethod (Some (New []));
             AWrite (NMethod 0) "tol"%string 7; ASolve 0; AWrite (NMethod 0) "tol"%string 8; ASolve 0; ASolve 1;
             ACreate 0; ASolve 0; AProblem (Some (New [("tol"%string, 3)])); AWrite (NProblem 3) "tol"%string 2; ASolveProblem 3] in
  keyed config /\ Forall gives_own cs /\ Forall keyed_call cs /\
  filter (fun r => match r with Ok None => false | _ => true end) (snd (history cs (imported config))) =
    [Ok (Some [("max_iter"%string, 10); ("print"%string, 0); ("tol"%string, 7)]);
     Ok (Some [("max_iter"%string, 10); ("print"%string, 0); ("tol"%string, 7)]);
     Ok (Some [("max_iter"%string, 1000); ("print"%string, 5)]);
     Ok (Some [("max_iter"%string, 10); ("print"%string, 0); ("tol"%string, 8)]);
     Ok (Some [("tol"%string, 2)])].
Proof. exact w_own_options_used. Qed.

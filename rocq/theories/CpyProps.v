(** Property theorems C84: copies of models, and the models of problems. *)
From Verif Require Import Base UtilModel ExprModel NlpModel SysModel OcpModel CpyModel CpySpec CpyProofs CpyMoreProofs CpyExProofs.
Local Open Scope list_scope.

(** After any history, models and problems are what they would be if every model and every
    problem were a value of its own; so is what any further call does and answers.  This
    holds whichever methods write into the dictionary of equations and whichever replace it. *)
Theorem C84_by_value : forall same rebound calls c,
    let w := history same rebound calls nothing in
    shown w = ideal_history same calls (mkValues [] []) /\
    shown (fst (step same rebound c w)) = fst (ideal_step same c (shown w)) /\
    snd (step same rebound c w) = snd (ideal_step same c (shown w)).
Proof. exact by_value_ok. Qed.
Print Assumptions C84_by_value.

(** A call changes no model but the one it is made on. *)
Theorem C84_model_kept : forall same rebound w c i m,
    reached same rebound w -> model_at w i = Some m -> target w c <> Some i ->
    model_at (fst (step same rebound c w)) i = Some m.
Proof. exact model_kept_ok. Qed.
Print Assumptions C84_model_kept.

(** A call changes no problem but the one it is made on, or whose working model it is made
    on. *)
Theorem C84_problem_kept : forall same rebound w c k o,
    reached same rebound w -> problem_at w k = Some o -> ~ concerns w k c ->
    problem_at (fst (step same rebound c w)) k = Some o.
Proof. exact problem_kept_ok. Qed.
Print Assumptions C84_problem_kept.

(** A copy is equal to the original.  It stays as it is, whatever happens to the original and
    to everything else, and the original stays as it is whatever happens to the copy. *)
Theorem C84_copy : forall same rebound w i m, reached same rebound w -> model_at w i = Some m ->
    exists w', step same rebound (CCopy i) w = (w', Ok tt) /\
      let j := length (w_models w) in
      model_at w j = None /\ model_at w' j = Some m /\
      (forall calls, never_on same rebound j calls w' -> model_at (history same rebound calls w') j = Some m) /\
      (forall calls, never_on same rebound i calls w' -> model_at (history same rebound calls w') i = Some m).
Proof. exact copy_ok. Qed.
Print Assumptions C84_copy.

(** A new problem has a working model of its own. *)
Theorem C84_new_problem : forall same rebound w i m x_0 t_0 t_f o,
    reached same rebound w -> model_at w i = Some m -> new_ocp m x_0 t_0 t_f = Ok o ->
    exists w', step same rebound (CProblem i x_0 t_0 t_f) w = (w', Ok tt) /\
      let k := length (w_probs w) in
      problem_at w' k = Some o /\ made_from w' k = Some i /\ working w' k = Some (length (w_models w)) /\
      model_at w (length (w_models w)) = None.
Proof. exact new_problem_ok. Qed.
Print Assumptions C84_new_problem.

(** The methods of a problem never change the model that the user made it from. *)
Theorem C84_user_kept : forall same rebound w k i m calls,
    reached same rebound w -> made_from w k = Some i -> model_at w i = Some m ->
    Forall (method_of k) calls -> model_at (history same rebound calls w) i = Some m.
Proof. exact user_kept_ok. Qed.
Print Assumptions C84_user_kept.

(** Resetting the working model replaces it by a copy of the model of the user as it is now,
    and leaves every other attribute, model and problem. *)
Theorem C84_reset : forall same rebound w k i m o,
    reached same rebound w -> problem_at w k = Some o -> made_from w k = Some i -> model_at w i = Some m ->
    exists w', step same rebound (CReset k) w = (w', Ok tt) /\ problem_at w' k = Some (set_o_model m o) /\
      made_from w' k = Some i /\
      (forall j m', model_at w j = Some m' -> model_at w' j = Some m') /\
      (forall k' o', k' <> k -> problem_at w k' = Some o' -> problem_at w' k' = Some o').
Proof. exact reset_ok. Qed.
Print Assumptions C84_reset.

(** Refuted: a problem that can be solved can be solved after its working model is reset.
    The bounds of the states included through the problem stay. *)
Theorem C84_reset_solvable_refuted : exists same rebound w k o w' o',
    reached same rebound w /\ problem_at w k = Some o /\ pre_solve_check o = Ok tt /\
    step same rebound (CReset k) w = (w', Ok tt) /\ problem_at w' k = Some o' /\
    pre_solve_check o' = Raise AnyException.
Proof. exact reset_breaks. Qed.
Print Assumptions C84_reset_solvable_refuted.

(** Refuted: resetting gives back the model that the problem was made with.  Here no method of
    the problem is called; the user has gone on with their own model. *)
Theorem C84_reset_original_refuted : exists same rebound w c k o w' o',
    reached same rebound w /\ problem_at w k = Some o /\
    problem_at (fst (step same rebound c w)) k = Some o /\
    step same rebound (CReset k) (fst (step same rebound c w)) = (w', Ok tt) /\ problem_at w' k = Some o' /\
    o_model o' <> o_model o.
Proof. exact reset_moves. Qed.
Print Assumptions C84_reset_original_refuted.

(** A model with one state, a copy, and a problem; the equation of the state is given in the
    copy and another in the problem, and the model of the user still has none. *)
Example three_models :
  let w := history never in_place tank_calls nothing in
  reached never in_place w /\ made_from w 0 = Some 0 /\ working w 0 = Some 2 /\
  option_map m_ode (model_at w 0) = Some [(10, None)] /\
  option_map m_ode (model_at w 1) = Some [(10, Some (EVar 10))] /\
  option_map m_ode (model_at w 2) = Some [(10, Some (EConst 3))] /\
  target w (CModel 1 (MReplaceVariable [10] [EVar 12])) <> Some 0 /\
  method_of 0 (CEdit 0 (PReplaceVariable [10] [EVar 12])).
Proof. exact three_models_ok. Qed.

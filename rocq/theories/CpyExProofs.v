(** Examples for copies of models. *)
From Verif Require Import Base UtilModel ExprModel NlpModel SysModel OcpModel CpyModel CpySpec.
Local Open Scope list_scope.

Definition never (a b : expr) : bool := false.
Definition in_place (c : cmd model unit) (m : model) : option equations := None.

Definition tank_calls : list call :=
  [CNew 1 2; CModel 0 (MIncludeState [10] None [11]); CCopy 0; CProblem 0 (Some [0%Q]) 0%Q 1%Q;
   CModel 1 (MIncludeEquations [] (Some [EVar 10]) None None);
   CEdit 0 (PIncludeEquations [] (Some [EConst 3]) None None)].
Lemma three_models_ok :
  let w := history never in_place tank_calls nothing in
  reached never in_place w /\ made_from w 0 = Some 0 /\ working w 0 = Some 2 /\
  option_map m_ode (model_at w 0) = Some [(10, None)] /\
  option_map m_ode (model_at w 1) = Some [(10, Some (EVar 10))] /\
  option_map m_ode (model_at w 2) = Some [(10, Some (EConst 3))] /\
  target w (CModel 1 (MReplaceVariable [10] [EVar 12])) <> Some 0 /\
  method_of 0 (CEdit 0 (PReplaceVariable [10] [EVar 12])).
Proof.
  split; [exists tank_calls; reflexivity|]. split; [reflexivity|]. split; [reflexivity|].
  split; [reflexivity|]. split; [reflexivity|]. split; [reflexivity|]. split; [discriminate|reflexivity].
Qed.

Definition second_calls : list call :=
  [CNew 1 2; CModel 0 (MIncludeState [10] (Some [EVar 10]) [11]); CProblem 0 (Some [0%Q]) 0%Q 1%Q;
   CEdit 0 (PIncludeState [12] (Some [EVar 10]) (Some [1%Q]) BNone BNone None [13] false)].
Lemma reset_breaks : exists same rebound w k o w' o',
    reached same rebound w /\ problem_at w k = Some o /\ pre_solve_check o = Ok tt /\
    step same rebound (CReset k) w = (w', Ok tt) /\ problem_at w' k = Some o' /\
    pre_solve_check o' = Raise AnyException.
Proof.
  exists never, in_place, (history never in_place second_calls nothing), 0.
  eexists. eexists. eexists. split; [exists second_calls; reflexivity|].
  split; [vm_compute; reflexivity|]. split; [vm_compute; reflexivity|]. split; [vm_compute; reflexivity|].
  split; [vm_compute; reflexivity|]. vm_compute; reflexivity.
Qed.

Definition plain_calls : list call :=
  [CNew 1 2; CModel 0 (MIncludeState [10] (Some [EVar 10]) [11]); CProblem 0 (Some [0%Q]) 0%Q 1%Q].
Lemma reset_moves : exists same rebound w c k o w' o',
    reached same rebound w /\ problem_at w k = Some o /\
    problem_at (fst (step same rebound c w)) k = Some o /\
    step same rebound (CReset k) (fst (step same rebound c w)) = (w', Ok tt) /\ problem_at w' k = Some o' /\
    o_model o' <> o_model o.
Proof.
  exists never, in_place, (history never in_place plain_calls nothing), (CModel 0 (MIncludeControl [20])), 0.
  eexists. eexists. eexists. split; [exists plain_calls; reflexivity|].
  split; [vm_compute; reflexivity|]. split; [vm_compute; reflexivity|]. split; [vm_compute; reflexivity|].
  split; [vm_compute; reflexivity|]. discriminate.
Qed.

(** C78: the constraints and costs of an optimal control problem are those of the calls. *)
From Coq Require Import String.
From Verif Require Import Base ExprModel NlpModel SysModel SysSpec OcpModel OcpSpec ColSpec CnsSpec CnsProofs.
Local Open Scope list_scope.

(** After any history of successful calls, what is imposed at the initial time, at the
    final time, along the trajectory and regardless of time, and what is minimised, is
    what the calls contributed, in their order. *)
Theorem C78_constraints_follow_calls :
  forall same ops o o',
    tidy o -> Forall orderly ops ->
    run_all (ocp_step same) ops o = (o', Ok tt) ->
    tidy o' /\ ledger_of o' = fold_left (fun l op => ledger_effect op l) ops (ledger_of o).
Proof. exact history_ledger. Qed.
Print Assumptions C78_constraints_follow_calls.

(** A new problem imposes the initial values of the states and nothing else, and has no
    cost. *)
Theorem C78_new_problem :
  forall m x_0 t_0 t_f o,
    length (m_x_0 m) = length (m_x m) ->
    new_ocp m x_0 t_0 t_f = Ok o ->
    tidy o /\ ledger_of o = starting (m_x m) (m_x_0 m).
Proof. exact new_ledger. Qed.
Print Assumptions C78_new_problem.

(** Unless variables are replaced, nothing imposed is ever lost or changed. *)
Theorem C78_nothing_lost :
  forall same ops o o',
    tidy o -> Forall orderly ops -> Forall (fun op => rewrites op = false) ops ->
    run_all (ocp_step same) ops o = (o', Ok tt) ->
    within (ledger_of o) (ledger_of o').
Proof. exact history_within. Qed.
Print Assumptions C78_nothing_lost.

(** Unless problems are merged too, the costs stay what they are. *)
Theorem C78_costs_stay :
  forall same ops o o',
    tidy o -> Forall orderly ops ->
    Forall (fun op => rewrites op = false /\ merges op = false) ops ->
    run_all (ocp_step same) ops o = (o', Ok tt) ->
    (o_L o', o_V o', o_S o') = (o_L o, o_V o, o_S o).
Proof. exact history_costs. Qed.
Print Assumptions C78_costs_stay.

(** The cart with its limits, then a change of variable in which the velocity becomes
    twice another. *)
Example C78_ex :
  exists o o',
    new_ocp (new_model 1 2) None 0%Q 10%Q = Ok o /\ tidy o /\
    Forall orderly (limited_cart_history ++ [PInitialEquality [EVar 11]; PReplaceVariable [11] [EBin OMul (EConst 2%Q) (EVar 90)]]) /\
    run_all (ocp_step (fun _ _ => false))
      (limited_cart_history ++ [PInitialEquality [EVar 11]; PReplaceVariable [11] [EBin OMul (EConst 2%Q) (EVar 90)]]) o = (o', Ok tt) /\
    l_initial (ledger_of o') = [EBin OSub (EVar 12) (EVar 10); EBin OSub (EVar 13) (EBin OMul (EConst 2%Q) (EVar 90));
                                EBin OMul (EConst 2%Q) (EVar 90)] /\
    l_final (ledger_of o') = [EBin OMul (EConst 2%Q) (EVar 90)] /\
    l_ineq (ledger_of o') = [(EBin OSub (EVar 20) (EConst 3%Q), "default"%string);
                             (EBin OSub (EVar 10) (EConst 4%Q), "end"%string)].
Proof.
  eexists; eexists. split; [vm_compute; reflexivity|]. split; [vm_compute; tauto|].
  split; [apply Forall_forall; intros op H; repeat (destruct H as [<-|H]; [try exact I; reflexivity|]); destruct H|].
  split; [vm_compute; reflexivity|]. vm_compute. auto.
Qed.

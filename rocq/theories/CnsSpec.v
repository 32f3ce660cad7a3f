(** Specification vocabulary for the constraints and costs of optimal control problems:
    what each call contributes to them. *)
From Coq Require Import String.
From Verif Require Import Base ExprModel SysModel OcpModel.
Local Open Scope list_scope.

(** What has to vanish at the initial time, at the final time and regardless of time;
    what must not be positive and what has to vanish along the trajectory, each with the
    time it is imposed at; the costs: along the trajectory, at the end, at the ends of
    the elements. *)
Record ledger := mkLedger
  { l_initial : list expr; l_final : list expr; l_free : list expr;
    l_ineq : list (expr * string); l_eq : list (expr * string); l_costs : list expr }.
Definition ledger_of (o : ocp) : ledger :=
  mkLedger (o_h_initial o) (o_h_final o) (o_h o) (combine (o_g_ineq o) (o_when_ineq o))
           (combine (o_g_eq o) (o_when_eq o)) (o_L o ++ o_V o ++ o_S o).

(** Every constraint has its time, and the costs are scalars. *)
Definition tidy (o : ocp) : Prop :=
  length (o_when_ineq o) = length (o_g_ineq o) /\ length (o_when_eq o) = length (o_g_eq o) /\
  length (o_L o) = 1%nat /\ length (o_V o) = 1%nat /\ length (o_S o) = 1%nat.

(** All with expressions in place of variables. *)
Definition rewritten (v : list sym) (e : list expr) (l : ledger) : ledger :=
  let on := fun a => substitute a v e in
  let on' := fun c : expr * string => (on (fst c), snd c) in
  mkLedger (map on (l_initial l)) (map on (l_final l)) (map on (l_free l)) (map on' (l_ineq l))
           (map on' (l_eq l)) (map on (l_costs l)).
(** The constraints of both, and the sums of the costs. *)
Definition joined (a b : ledger) : ledger :=
  mkLedger (l_initial a ++ l_initial b) (l_final a ++ l_final b) (l_free a ++ l_free b)
           (l_ineq a ++ l_ineq b) (l_eq a ++ l_eq b)
           (map (fun c => EBin OAdd (fst c) (snd c)) (combine (l_costs a) (l_costs b))).
Definition add_initial (es : list expr) (l : ledger) : ledger :=
  mkLedger (l_initial l ++ es) (l_final l) (l_free l) (l_ineq l) (l_eq l) (l_costs l).
Definition at_time (w : string) (es : list expr) : list (expr * string) := map (fun e => (e, w)) es.

Definition ledger_effect (op : ocp_op) (l : ledger) : ledger :=
  match op with
  | PIncludeState var _ (Some _) _ _ _ initial _ =>
      add_initial (map (fun c => EBin OSub (EVar (fst c)) (EVar (snd c))) (combine initial var)) l
  | PIncludeState _ _ None _ _ (Some h) _ _ => add_initial h l
  | PCreateCostState x_c x_c0 => add_initial [EBin OSub (EVar x_c0) (EVar x_c)] l
  | PInitialEquality es => add_initial es l
  | PFinalEquality es =>
      mkLedger (l_initial l) (l_final l ++ es) (l_free l) (l_ineq l) (l_eq l) (l_costs l)
  | PEquality es =>
      mkLedger (l_initial l) (l_final l) (l_free l ++ es) (l_ineq l) (l_eq l) (l_costs l)
  | PTimeInequality es w =>
      mkLedger (l_initial l) (l_final l) (l_free l) (l_ineq l ++ at_time w es) (l_eq l) (l_costs l)
  | PTimeEquality es w =>
      mkLedger (l_initial l) (l_final l) (l_free l) (l_ineq l) (l_eq l ++ at_time w es) (l_costs l)
  | PReplaceVariable v e | PParametrizeControl v e _ => rewritten v e l
  | PMerge problems => fold_left (fun l q => joined l (ledger_of q)) problems l
  | _ => l
  end.

(** Initial symbols are given one per state, and the problems merged are tidy. *)
Definition orderly (op : ocp_op) : Prop :=
  match op with
  | PIncludeState var _ (Some _) _ _ _ initial _ => length initial = length var
  | PMerge problems => Forall tidy problems
  | _ => True
  end.

(** A problem just made from a model: the states take their initial values, and there is
    nothing else. *)
Definition starting (states initial : list sym) : ledger :=
  mkLedger (map (fun c => EBin OSub (EVar (fst c)) (EVar (snd c))) (combine states initial)) [] [] [] []
           [EConst 0%Q; EConst 0%Q; EConst 0%Q].

(** What the first imposes the second imposes too. *)
Definition within (a b : ledger) : Prop :=
  (forall e, In e (l_initial a) -> In e (l_initial b)) /\ (forall e, In e (l_final a) -> In e (l_final b)) /\
  (forall e, In e (l_free a) -> In e (l_free b)) /\ (forall c, In c (l_ineq a) -> In c (l_ineq b)) /\
  (forall c, In c (l_eq a) -> In c (l_eq b)).
Definition rewrites (op : ocp_op) : bool :=
  match op with PReplaceVariable _ _ | PParametrizeControl _ _ _ => true | _ => false end.
Definition merges (op : ocp_op) : bool := match op with PMerge _ => true | _ => false end.

(** Property theorems C09-C12: the nonlinear program builder. *)
From Verif Require Import Base BaseProofs ExprModel NlpModel NlpSpec NlpProofs.

(** ** C09 *)

(** After any history of calls, accepted or rejected, vectors are aligned and
    variable bounds ordered. *)
Theorem C09_aligned_and_ordered :
  forall F is_equal_dm ops,
    let s := run_caught (nlp_step F is_equal_dm) ops nlp_init in
    aligned s /\ ordered (nx_lb s) (nx_ub s).
Proof. exact reachable_aligned. Qed.
Print Assumptions C09_aligned_and_ordered.

Theorem C09_constraint_bounds_ordered :
  forall F is_equal_dm ops,
    Forall numeric_op ops ->
    let s := run_caught (nlp_step F is_equal_dm) ops nlp_init in
    ordered (ng_lb s) (ng_ub s).
Proof. exact reachable_constraints_ordered. Qed.
Print Assumptions C09_constraint_bounds_ordered.

Theorem C09_rejected_changes_nothing :
  forall F is_equal_dm o s s' e,
    nlp_step F is_equal_dm o s = (s', Raise e) -> s' = s.
Proof. exact nlp_step_err. Qed.
Print Assumptions C09_rejected_changes_nothing.

Theorem C09_accepted_only_appends :
  forall F is_equal_dm o s s',
    nlp_step F is_equal_dm o s = (s', Ok tt) ->
    exists v vl vu g gl gu p,
      nx s' = nx s ++ v /\ nx_lb s' = nx_lb s ++ vl /\ nx_ub s' = nx_ub s ++ vu /\
      ng s' = ng s ++ g /\ ng_lb s' = ng_lb s ++ gl /\ ng_ub s' = ng_ub s ++ gu /\
      np s' = np s ++ p.
Proof. exact step_appends. Qed.
Print Assumptions C09_accepted_only_appends.

(** Scalar bounds go to every component; they are refused exactly when the
    lower one is above the upper one. *)
Theorem C09_scalar_bounds :
  forall v a b s,
    (0 < length v)%nat ->
    (ext_le a b ->
       include_variable v (AFloat a) (AFloat b) s =
       (mkNlp (nx s ++ v) (nx_lb s ++ repeat (BNum a) (length v))
              (nx_ub s ++ repeat (BNum b) (length v))
              (ng s) (ng_lb s) (ng_ub s) (np s) (nf s) (nsolver s), Ok tt)) /\
    (~ ext_le a b ->
       include_variable v (AFloat a) (AFloat b) s = (s, Raise ValueError)).
Proof. exact scalar_bounds. Qed.
Print Assumptions C09_scalar_bounds.

(** Bounds that mention a variable or a parameter of the problem are refused; for the
    bounds of variables only parameters are looked for. *)
Theorem C09_dependent_bounds_refused :
  forall s,
    (forall cols e lb ub,
       bound_mentions lb (nx s ++ np s) \/ bound_mentions ub (nx s ++ np s) ->
       exists x, include_inequality cols e lb ub s = (s, Raise x)) /\
    (forall cols e rhs,
       bound_mentions rhs (nx s ++ np s) -> exists x, include_equality cols e rhs s = (s, Raise x)) /\
    (forall v lb ub,
       bound_mentions (Some lb) (np s) \/ bound_mentions (Some ub) (np s) ->
       exists x, include_variable v lb ub s = (s, Raise x)).
Proof.
  exact (fun s => conj (fun cols e lb ub => inequality_bounds_refused cols e lb ub s)
                 (conj (fun cols e rhs => equality_bounds_refused cols e rhs s)
                       (fun v lb ub => variable_bounds_refused v lb ub s))).
Qed.
Print Assumptions C09_dependent_bounds_refused.

(** Variable 1 with lower bound 2 * p for the parameter p. *)
Example C09_dependent_example :
  bound_mentions (Some (AVec [BNum NInf; BExp (EBin OMul (EConst 2) (EVar 7%nat))])) ([1%nat] ++ [7%nat]).
Proof. exists [BNum NInf; BExp (EBin OMul (EConst 2) (EVar 7%nat))], (EBin OMul (EConst 2) (EVar 7%nat)), 7%nat. simpl. tauto. Qed.

(** A bound given as a Python int is not spread: the call fails with
    AttributeError. *)
Theorem C09_int_bound_refuted :
  exists s, include_variable [1; 2]%nat (AInt 0) (AFloat PInf) s = (s, Raise AttributeError).
Proof. exact w_C09_int_bound_refuted. Qed.
Print Assumptions C09_int_bound_refuted.

(** A numeric pair is not compared when another entry of the vectors is
    symbolic: lower 3 and upper 1 are accepted. *)
Theorem C09_symbolic_bounds_unchecked_refuted :
  exists F is_equal_dm ops,
    let s := run_caught (nlp_step F is_equal_dm) ops nlp_init in
    ~ ordered (ng_lb s) (ng_ub s).
Proof. exact w_C09_symbolic_bounds_unchecked_refuted. Qed.
Print Assumptions C09_symbolic_bounds_unchecked_refuted.

(** ** C10 *)

(** A point is feasible for what the solver receives exactly when it satisfies
    every accepted request.  [is_equal_dm] is casadi's comparison of the constant
    side with the right operand, assumed here to compare values. *)
Theorem C10_feasible_iff_all_accepted :
  forall F env is_equal_dm ops,
    compares_values F is_equal_dm ->
    (feasible F env (run_caught (nlp_step F is_equal_dm) ops nlp_init) <->
     Forall (satisfies F env) (accepted (nlp_step F is_equal_dm) ops nlp_init)).
Proof. exact feasible_from_scratch. Qed.
Print Assumptions C10_feasible_iff_all_accepted.

(** The same from any reachable problem: later requests only intersect. *)
Theorem C10_later_requests_intersect :
  forall F env is_equal_dm ops s,
    compares_values F is_equal_dm -> aligned s /\ ordered (nx_lb s) (nx_ub s) ->
    (feasible F env (run_caught (nlp_step F is_equal_dm) ops s) <->
     feasible F env s /\ Forall (satisfies F env) (accepted (nlp_step F is_equal_dm) ops s)).
Proof. exact feasible_history. Qed.
Print Assumptions C10_later_requests_intersect.

(** If the comparison is by node identity, and so false for a freshly converted
    number, [x <= 1] is recorded as [1 <= x]. *)
Theorem C10_node_identity_refuted :
  exists F env ops,
    Forall (satisfies F env) (accepted (nlp_step F (fun _ _ => false)) ops nlp_init) /\
    ~ feasible F env (run_caught (nlp_step F (fun _ _ => false)) ops nlp_init).
Proof. exact w_C10_node_identity_refuted. Qed.
Print Assumptions C10_node_identity_refuted.

(** ** C11 *)

Theorem C11_equality_recognised :
  forall r, is_equality r = true <-> r_op r = OpEq.
Proof. exact w_C11_equality_recognised. Qed.
Print Assumptions C11_equality_recognised.

Theorem C11_inequality_recognised :
  forall r, is_inequality r = true <-> r_op r = OpLe.
Proof. exact w_C11_inequality_recognised. Qed.
Print Assumptions C11_inequality_recognised.

(** The documented behaviour covers [x < 1]; every strict inequality is
    rejected. *)
Theorem C11_strict_inequality_refuted :
  (exists r, r_op r = OpLt /\ is_inequality r = false) /\
  forall F is_equal_dm r s,
    r_op r = OpLt -> include_constraint F is_equal_dm r s = (s, Raise ValueError).
Proof.
  exact (conj (ex_intro _ (mkRel OpLt [EVar 0%nat] [EConst 1]) (conj eq_refl eq_refl))
              strict_rejected).
Qed.
Print Assumptions C11_strict_inequality_refuted.

(** ** C12 *)

(** What the solver is called with; the dictionary passed by the caller is the
    input [cd] and is not modified. *)
Theorem C12_call_arguments :
  forall s guess cd p lam_x lam_g,
    let base := match cd with Some d => d | None => get_default_call_dict s end in
    let pv := match p with Some v => v | None => [] end in
    match get_solver_call_args s guess cd p lam_x lam_g with
    | Raise e => e = ValueError /\ length pv <> length (np s)
    | Ok args =>
        length pv = length (np s) /\
        dget ckey_eqb PKey args = Some pv /\
        dget ckey_eqb X0 args = match guess with Some g => Some g | None => dget ckey_eqb X0 base end /\
        dget ckey_eqb LamX0 args = match lam_x with Some g => Some g | None => dget ckey_eqb LamX0 base end /\
        dget ckey_eqb LamG0 args = match lam_g with Some g => Some g | None => dget ckey_eqb LamG0 base end /\
        (forall k, k <> PKey -> k <> X0 -> k <> LamX0 -> k <> LamG0 ->
           dget ckey_eqb k args = dget ckey_eqb k base)
    end.
Proof. exact call_args_spec. Qed.
Print Assumptions C12_call_arguments.

Theorem C12_default_bounds :
  forall s,
    dget ckey_eqb Lbx (get_default_call_dict s) = Some (nx_lb s) /\
    dget ckey_eqb Ubx (get_default_call_dict s) = Some (nx_ub s) /\
    dget ckey_eqb Lbg (get_default_call_dict s) = Some (ng_lb s) /\
    dget ckey_eqb Ubg (get_default_call_dict s) = Some (ng_ub s).
Proof. exact w_C12_default_bounds. Qed.
Print Assumptions C12_default_bounds.

Theorem C12_first_solve_uses_current_problem :
  forall g cd p lx lg s s' f args,
    nsolver s = None -> solve g cd p lx lg s = (s', Ok (f, args)) ->
    f = mkSolver (nf s) (ng s) (nx s) (np s) /\ nsolver s' = Some f.
Proof. exact solve_first. Qed.
Print Assumptions C12_first_solve_uses_current_problem.

Theorem C12_later_solves_use_the_first_problem :
  forall F is_equal_dm ops g cd p lx lg s f s' f' args,
    nsolver s = Some f ->
    solve g cd p lx lg (run_caught (nlp_step F is_equal_dm) ops s) = (s', Ok (f', args)) ->
    f' = f.
Proof. exact solve_later. Qed.
Print Assumptions C12_later_solves_use_the_first_problem.

(** A constraint added after a solve is not in the problem solved next, while
    its bounds are passed: sizes no longer agree. *)
Theorem C12_solve_follows_the_problem_refuted :
  exists F is_equal_dm ops s' f args,
    solve None None None None None
          (run_caught (nlp_step F is_equal_dm) ops nlp_init) = (s', Ok (f, args)) /\
    f <> mkSolver (nf s') (ng s') (nx s') (np s') /\
    exists lbg, dget ckey_eqb Lbg args = Some lbg /\ length lbg <> length (s_g f).
Proof. exact w_C12_solve_follows_the_problem_refuted. Qed.
Print Assumptions C12_solve_follows_the_problem_refuted.

(** ** Examples *)

(** A history with rejected calls (bounds out of order, strict inequality) and
    accepted ones. *)
Definition nlp_example_ops : list nlp_op :=
  [NCreateVariable [0; 1]%nat (AFloat (Fin 0)) (AFloat PInf);
   NIncludeVariable [2]%nat (AFloat (Fin 3)) (AFloat (Fin 1));
   NIncludeParameter [5]%nat;
   NIncludeInequality 1 [EBin OAdd (EVar 0%nat) (EVar 1%nat)] None (Some (AInt 4));
   NIncludeConstraint (mkRel OpLt [EVar 0%nat] [EConst 1]);
   NIncludeConstraint (mkRel OpLe [EConst 1] [EVar 1%nat]);
   NIncludeEquality 1 [EVar 0%nat] (Some (AFloat (Fin 2)))].
Definition value_compare (dm : list bnd) (es : list expr) : bool := forallb is_constant es.

Example C09_example :
  let s := run_caught (nlp_step (fun _ q => q) value_compare) nlp_example_ops nlp_init in
  nx s = [0; 1]%nat /\ length (ng s) = 3%nat /\
  ng_lb s = [BNum NInf; BNum (Fin 1); BNum (Fin 2)] /\
  ng_ub s = [BNum (Fin 4); BNum PInf; BNum (Fin 2)] /\
  length (accepted (nlp_step (fun _ q => q) value_compare) nlp_example_ops nlp_init) = 5%nat.
Proof. repeat split. Qed.

Example C10_example_comparison : compares_values (fun _ q => q) value_compare.
Proof. split; intros; assumption. Qed.

Example C10_example :
  feasible (fun _ q => q) (fun v => match v with 0%nat => 2 | 1%nat => 1 | _ => 0 end)%Q
    (run_caught (nlp_step (fun _ q => q) value_compare) nlp_example_ops nlp_init).
Proof.
  split; intros i q l u Hq Hl Hu;
    do 4 (destruct i as [|i]; [injection Hq as <-; injection Hl as <-; injection Hu as <-;
                               simpl; split; try exact I; apply Qle_bool_iff; reflexivity
                              | try (destruct i; discriminate)]).
Qed.

Example C12_example :
  let s := run_caught (nlp_step (fun _ q => q) value_compare) nlp_example_ops nlp_init in
  is_ok (get_solver_call_args s (Some [BNum (Fin 1); BNum (Fin 1)]) None
           (Some [BNum (Fin 9)]) None None) = true /\
  get_solver_call_args s None None None None None = Raise ValueError.
Proof. split; reflexivity. Qed.

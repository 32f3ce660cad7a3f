(** Specification vocabulary for the indirect method. *)
From Coq Require Import String Qabs Qminmax.
From Verif Require Import Base ExprModel NlpModel SysModel SysSpec OcpModel OcpSpec StoSpec IndModel.
Local Open Scope list_scope.

(** ** Derivatives *)

(** [d] is the derivative of [f] at [x]: the error of the linear approximation vanishes
    faster than the step. *)
Definition has_derivative (f : Q -> Q) (x d : Q) : Prop :=
  (forall eps, 0 < eps -> exists delta, 0 < delta /\
     forall h, Qabs h < delta -> Qabs (f (x + h) - f x - d * h) <= eps * Qabs h)%Q.
(** The value of one symbol changed. *)
Definition with_value (env : sym -> Q) (s : sym) (v : Q) : sym -> Q :=
  fun s' => if Nat.eqb s' s then v else env s'.
(** [d] is the partial derivative of [e] by [s] at [env]. *)
Definition partial (F : nat -> Q -> Q) (env : sym -> Q) (e : expr) (s : sym) (d : Q) : Prop :=
  has_derivative (fun v => eval F (with_value env s v) e) (env s) d.

(** [dfun] gives the derivatives of the unary operations, as an expression of the same
    argument. *)
Definition differentiates (F : nat -> Q -> Q) (dfun : nat -> expr -> expr) (env : sym -> Q)
    (f : nat) (a : expr) : Prop :=
  has_derivative (F f) (eval F env a) (eval F env (dfun f a)).
(** Nothing in the expression fails to be differentiable at [env]: no division by zero,
    no kinks, and the unary operations are differentiable where they are used. *)
Fixpoint smooth (F : nat -> Q -> Q) (dfun : nat -> expr -> expr) (env : sym -> Q) (e : expr) : Prop :=
  match e with
  | EConst _ | EVar _ => True
  | EBin OAdd a b | EBin OSub a b | EBin OMul a b => smooth F dfun env a /\ smooth F dfun env b
  | EBin ODiv a b => smooth F dfun env a /\ smooth F dfun env b /\ ~ (eval F env b == 0)%Q
  | EBin _ _ _ => False
  | EFun f a => smooth F dfun env a /\ differentiates F dfun env f a
  end.
(** Polynomial expressions are smooth everywhere. *)
Fixpoint polynomial (e : expr) : bool :=
  match e with
  | EConst _ | EVar _ => true
  | EBin OAdd a b | EBin OSub a b | EBin OMul a b => polynomial a && polynomial b
  | _ => false
  end.

(** ** The adjoint system *)

(** Sum of multipliers times expressions. *)
Definition pairing (F : nat -> Q -> Q) (env : sym -> Q) (l : list sym) (es : list expr) : Q :=
  fold_right Qplus 0%Q (map (fun p => (env (fst p) * eval F env (snd p))%Q) (combine l es)).

(** The created symbols have the sizes that casadi was asked for, and are new. *)
Definition names_for (n : created) (o : ocp) : Prop :=
  let m := o_model o in
  length (n_lamb n) = length (m_x m) /\ length (n_lamb_0 n) = length (m_x m) /\
  length (n_nu n) = length (m_y m) /\ length (n_eta n) = length (o_h_final o) /\
  NoDup (n_lamb n) /\ (forall s, In s (n_lamb n) -> ~ In s (m_x m)).

(** Enough for a Hamiltonian: an equation for every state, as many algebraic equations
    as algebraic variables, and scalar costs. *)
Definition has_hamiltonian (o : ocp) : Prop :=
  complete (o_model o) /\ length (m_alg (o_model o)) = length (m_y (o_model o)) /\
  length (o_L o) = 1%nat /\ length (o_V o) = 1%nat.

(** The dynamics, constraints and costs are smooth at [env]. *)
Definition smooth_problem (F : nat -> Q -> Q) (dfun : nat -> expr -> expr) (env : sym -> Q) (o : ocp) : Prop :=
  Forall (smooth F dfun env) (ode (o_model o)) /\ Forall (smooth F dfun env) (m_alg (o_model o)) /\
  Forall (smooth F dfun env) (o_L o) /\ Forall (smooth F dfun env) (o_V o) /\
  Forall (smooth F dfun env) (o_h_final o).

(** [H] is the running cost plus the equations weighted by their multipliers. *)
Definition is_hamiltonian (n : created) (o : ocp) (H : expr) : Prop :=
  forall F env, exists l, o_L o = [l] /\
    (eval F env H == eval F env l + pairing F env (n_lamb n) (ode (o_model o))
                     + pairing F env (n_nu n) (m_alg (o_model o)))%Q.

(** The condition at the final time for one state [s] and its adjoint state [l]: the
    adjoint state is the derivative of the final cost plus the weighted derivatives of
    the final constraints. *)
Definition transversal (F : nat -> Q -> Q) (env : sym -> Q) (o : ocp) (eta : list sym)
    (s l : sym) (e : expr) : Prop :=
  exists v dv dh, o_V o = [v] /\ partial F env v s dv /\
    Forall2 (fun h d => partial F env h s d) (o_h_final o) dh /\
    (eval F env e ==
     env l - dv - fold_right Qplus 0 (map (fun p => fst p * env (snd p)) (combine dh eta)))%Q.

(** What the call appends: equations [l_dot] for the adjoint states, algebraic equations
    [g] and final conditions [t]. *)
Definition adjoint_values (F : nat -> Q -> Q) (env : sym -> Q) (n : created) (o : ocp) (H : expr)
    (l_dot g t : list expr) : Prop :=
  Forall2 (fun s e => partial F env H s (- eval F env e)) (m_x (o_model o)) l_dot /\
  Forall2 (fun s e => partial F env H s (eval F env e)) (m_y (o_model o)) g /\
  Forall2 (fun sl e => transversal F env o (n_eta n) (fst sl) (snd sl) e)
          (combine (m_x (o_model o)) (n_lamb n)) t.

(** The problem with these things appended and nothing else changed. *)
Definition with_adjoints (n : created) (l_dot g t : list expr) (o : ocp) : ocp :=
  let m := o_model o in
  let nx := length (m_x m) in
  let ny := length (m_y m) in
  mkOcp (o_t_0 o) (o_t_f o) (o_x_0 o ++ repeat 0%Q nx)
    (mkModel (m_x m ++ n_lamb n) (m_x_0 m ++ n_lamb_0 n)
       (m_ode m ++ combine (n_lamb n) (map Some l_dot)) (m_y m ++ n_nu n) (m_alg m ++ g)
       (m_u m) (m_u_par m) (m_u_expr m) (m_parametrized m) (m_p m) (m_theta m) (m_t m) (m_tau m) true)
    (n_eta n) (o_p_opt o) (o_theta_opt o)
    (o_x_min o ++ repeat NInf nx) (o_x_max o ++ repeat PInf nx)
    (o_y_min o ++ repeat NInf ny) (o_y_max o ++ repeat PInf ny)
    (o_u_min o) (o_u_max o) (o_du_min o) (o_du_max o) (o_p_min o) (o_p_max o) (o_th_min o) (o_th_max o)
    (o_h o) (o_h_initial o) (o_h_final o ++ t) (o_g_eq o) (o_g_ineq o) (o_when_eq o) (o_when_ineq o)
    (o_L o) (o_V o) (o_S o) (o_last_u o)
    (match o_y_guess o with Some v => Some (v ++ repeat 0%Q ny) | None => None end) (o_u_guess o)
    (o_positive o) (o_x_cost o).

(** ** The optimal control *)

(** [v] lies between the bounds. *)
Definition above (lo : ext) (v : Q) : Prop :=
  match lo with NInf => True | Fin a => (a <= v)%Q | PInf => False end.
Definition below (v : Q) (hi : ext) : Prop :=
  match hi with PInf => True | Fin b => (v <= b)%Q | NInf => False end.
Definition between (lo hi : ext) (v : Q) : Prop := above lo v /\ below v hi.
(** Some value lies between the bounds. *)
Definition consistent (lo hi : ext) : Prop := exists v, between lo hi v.
Definition feasible (o : ocp) (v : nat -> Q) : Prop :=
  forall i, i < length (m_u (o_model o)) -> between (nth i (o_u_min o) NInf) (nth i (o_u_max o) PInf) (v i).

(** The quadratic function [c + b.v + v.A v / 2] of [n] numbers. *)
Definition quadratic (n : nat) (c : Q) (b : nat -> Q) (A : nat -> nat -> Q) (v : nat -> Q) : Q :=
  (c + qsum_to n (fun i => b i * v i) + (1 # 2) * qsum_to n (fun i => v i * qsum_to n (fun j => A i j * v j)))%Q.
Definition symmetric (n : nat) (A : nat -> nat -> Q) : Prop :=
  forall i j, i < n -> j < n -> (A i j == A j i)%Q.
Definition diagonal_positive (n : nat) (A : nat -> nat -> Q) : Prop :=
  (forall i, i < n -> (0 < A i i)%Q) /\ (forall i j, i < n -> j < n -> i <> j -> (A i j == 0)%Q).
Definition semidefinite (n : nat) (A : nat -> nat -> Q) : Prop :=
  forall v, (0 <= qsum_to n (fun i => v i * qsum_to n (fun j => A i j * v j)))%Q.

(** The controls set to the values [v], everything else as in [env]. *)
Definition controls_at (env : sym -> Q) (us : list sym) (v : nat -> Q) : sym -> Q :=
  assign env us (map v (seq 0 (length us))).
(** As a function of the controls [us], [H] is that quadratic function. *)
Definition quadratic_in (F : nat -> Q -> Q) (env : sym -> Q) (us : list sym) (H : expr)
    (c : Q) (b : nat -> Q) (A : nat -> nat -> Q) : Prop :=
  forall v, (eval F (controls_at env us v) H == quadratic (length us) c b A v)%Q.
(** [H] and its derivatives by the controls are smooth for all values of the controls. *)
Definition smooth_in (F : nat -> Q -> Q) (dfun : nat -> expr -> expr) (env : sym -> Q) (us : list sym)
    (H : expr) : Prop :=
  forall v, smooth F dfun (controls_at env us v) H /\
            forall d, In d (gradient dfun H us) -> smooth F dfun (controls_at env us v) d.

(** [M] evaluates to the inverse of [A]. *)
Definition value_at (F : nat -> Q -> Q) (env : sym -> Q) (M : list (list expr)) (i j : nat) : Q :=
  eval F env (nth j (nth i M []) (EConst 0%Q)).
Definition inverse_of (n : nat) (A B : nat -> nat -> Q) : Prop :=
  forall i j, i < n -> j < n ->
    (qsum_to n (fun k => A i k * B k j) == if i =? j then 1 else 0)%Q.
Definition shape (n : nat) (M : list (list expr)) : Prop :=
  length M = n /\ Forall (fun r => length r = n) M.
(** What is required of casadi's [inv]: the result has the shape of its argument and,
    wherever the argument evaluates to a matrix with an inverse, to that inverse. *)
Definition inverts (F : nat -> Q -> Q) (inverse : list (list expr) -> res (list (list expr))) : Prop :=
  forall n M N, shape n M -> inverse M = Ok N ->
    shape n N /\
    forall env, (exists B, inverse_of n (value_at F env M) B) ->
      inverse_of n (value_at F env M) (value_at F env N).

(** No partial derivative by a control at the values [s] of the controls. *)
Definition stationary (F : nat -> Q -> Q) (env : sym -> Q) (us : list sym) (H : expr) (s : nat -> Q) : Prop :=
  forall i, i < length us -> partial F (controls_at env us s) H (nth i us 0) 0%Q.
(** At [env], the Hamiltonian of the method is a quadratic function of the controls with
    the regular symmetric second derivative [A]. *)
Definition quadratic_case (F : nat -> Q -> Q) (dfun : nat -> expr -> expr) (env : sym -> Q) (k : indirect)
    (A : nat -> nat -> Q) : Prop :=
  let us := m_u (i_model k) in
  NoDup us /\ symmetric (length us) A /\ (exists B, inverse_of (length us) A B) /\
  (exists c b, quadratic_in F env us (i_H k) c b A) /\ smooth_in F dfun env us (i_H k).
(** The values of the controls at [env] that the expressions [u_opt] describe. *)
Definition control_values (F : nat -> Q -> Q) (env : sym -> Q) (u_opt : list expr) : nat -> Q :=
  fun i => eval F env (nth i u_opt (EConst 0%Q)).
(** The value of the Hamiltonian at [env] for the values [v] of the controls. *)
Definition hamiltonian_at (F : nat -> Q -> Q) (env : sym -> Q) (k : indirect) (v : nat -> Q) : Q :=
  eval F (controls_at env (m_u (i_model k)) v) (i_H k).

(** ** Construction and preparation *)

(** The bounds of states and algebraic variables removed, nothing else changed. *)
Definition without_path_bounds (o : ocp) : ocp :=
  set_o_y_max (repeat PInf (length (m_y (o_model o))))
    (set_o_y_min (repeat NInf (length (m_y (o_model o))))
      (set_o_x_max (repeat PInf (length (m_x (o_model o))))
        (set_o_x_min (repeat NInf (length (m_x (o_model o)))) o))).

(** Every cost, constraint and equation of [new] has at [env] the value that the one of
    [old] has at [env']. *)
Definition same_value (F : nat -> Q -> Q) (env env' : sym -> Q) (old new : expr) : Prop :=
  (eval F env new == eval F env' old)%Q.
Definition same_equation (F : nat -> Q -> Q) (env env' : sym -> Q) (old new : sym * option expr) : Prop :=
  fst new = fst old /\
  match snd old, snd new with
  | Some e, Some e' => same_value F env env' e e'
  | None, None => True
  | _, _ => False
  end.
Definition takes_values (F : nat -> Q -> Q) (env env' : sym -> Q) (old new : ocp) : Prop :=
  Forall2 (Forall2 (same_value F env env')) (problem_expressions old) (problem_expressions new) /\
  Forall2 (same_equation F env env') (m_ode (o_model old)) (m_ode (o_model new)) /\
  Forall2 (same_value F env env') (m_alg (o_model old)) (m_alg (o_model new)).

(** ** Examples *)

(** A tank with level 10, two coupled inflows 20 and 21, running cost
    u1^2 + u1 u2 + u2^2 - 3 u1, final cost the level, and the
    bounds u1 <= 1, -1 <= u2. *)
Definition coupled_cost : expr :=
  EBin OSub
    (EBin OAdd (EBin OAdd (EBin OMul (EVar 20) (EVar 20)) (EBin OMul (EVar 20) (EVar 21)))
               (EBin OMul (EVar 21) (EVar 21)))
    (EBin OMul (EConst 3%Q) (EVar 20)).
Definition coupled_history : list ocp_op :=
  [ PIncludeState [10] None (Some [1%Q]) BNone (BVec [Fin 5%Q]) None [11] false;
    PIncludeControl [20; 21] (Some [NInf; Fin (-1)%Q]) (Some [Fin 1%Q; PInf]) None None None;
    PIncludeEquations [] (Some [EBin OAdd (EVar 20) (EVar 21)]) (Some [10]) None;
    PFinalEquality [EBin OSub (EVar 10) (EConst 2%Q)] ].
Definition example_problem (history : list ocp_op) (L : expr) : res ocp :=
  match new_ocp (new_model 1 2) None 0%Q 10%Q with
  | Raise e => Raise e
  | Ok o => match run_all (ocp_step (fun _ _ => false)) history o with
            | (_, Raise e) => Raise e
            | (o1, Ok _) => Ok (set_o_V [EVar 10] (set_o_L [L] o1))
            end
  end.
Definition example_names : created := mkCreated [30] [31] [] [32] 40 41.
Definition no_unary (f : nat) (a : expr) : expr := EConst 0%Q.
Definition example_indirect (history : list ocp_op) (L : expr) : res indirect :=
  match example_problem history L with
  | Raise e => Raise e
  | Ok o => snd (new_indirect 3 10 None false o)
  end.
(** The method after the adjoint states were created. *)
Definition example_adjoint (history : list ocp_op) (L : expr) : res indirect :=
  match example_indirect history L with
  | Raise e => Raise e
  | Ok k => match create_adjoint_states no_unary example_names k with
            | (_, Raise e) => Raise e
            | (k', Ok _) => Ok k'
            end
  end.
(** The inverse of matrices of size one and two. *)
Definition small_inverse (M : list (list expr)) : res (list (list expr)) :=
  match M with
  | [[a]] => Ok [[EBin ODiv (EConst 1%Q) a]]
  | [[a; b]; [c; d]] =>
      let det := EBin OSub (EBin OMul a d) (EBin OMul b c) in
      Ok [[EBin ODiv d det; EBin ODiv (neg b) det]; [EBin ODiv (neg c) det; EBin ODiv a det]]
  | _ => Raise CasadiError
  end.
Definition never_zero (M : list (list expr)) : bool := false.

(** A tank with one inflow 20 between -1 and 1 and its square as cost. *)
Definition single_history : list ocp_op :=
  [ PIncludeState [10] None (Some [1%Q]) BNone (BVec [Fin 5%Q]) None [11] false;
    PIncludeControl [20] (Some [Fin (-1)%Q]) (Some [Fin 1%Q]) None None None;
    PIncludeEquations [] (Some [EVar 20]) (Some [10]) None;
    PFinalEquality [EBin OSub (EVar 10) (EConst 2%Q)] ].
Definition single_cost : expr := EBin OMul (EVar 20) (EVar 20).
(** The same tank with the cost u^4 + u^2 - u, and with the cost u. *)
Definition quartic_cost : expr :=
  EBin OSub (EBin OAdd (EBin OMul single_cost single_cost) single_cost) (EVar 20).
(** The second derivatives in the two examples. *)
Definition two (i j : nat) : Q := 2%Q.
Definition coupling (i j : nat) : Q := if i =? j then 2%Q else 1%Q.
(** The method told to create a cost state. *)
Definition with_cost_state (k : indirect) : indirect :=
  mkIndirect (i_problem k) (i_H k) (i_degree k) (i_elements k) true false false.

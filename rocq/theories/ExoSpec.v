(** Vocabulary for the preparation of the problems of nodes. *)
From Coq Require Import String.
From Verif Require Import Base UtilModel ExprModel LagSpec SysModel NlpModel NlpSpec OcpModel ResModel NetModel DalModel DalSpec ExoModel.
Local Open Scope list_scope.

(** The inputs of the node that its predecessors feed, and its outputs that its successors
    use, in the order of the connections. *)
Definition fed_inputs (preds : list conn) : list sym := flat_map snd preds.
Definition used_outputs (succs : list conn) : list sym := flat_map fst succs.

(** The points of the polynomials: [degree] different ones. *)
Definition good_points (points : nat -> list Q) (degree : nat) : Prop :=
  (1 <= degree)%nat /\ length (points degree) = degree /\ distinct (points degree).

(** Parameter [k] of connected entry [i] is the symbol [first + i * degree + k]; at point
    [k] of an element the approximation of the entry is worth it. *)
Definition is_worth (points : nat -> list Q) (degree : nat) (tau : sym) (e : expr) (v : (sym -> Q) -> nat -> Q) : Prop :=
  forall F env k, (k < degree)%nat -> (env tau == nth k (points degree) 0)%Q -> (eval F env e == v env k)%Q.

(** ** What the preparation adds *)

(** [alg] has an equation for every input and [eqs] one for every output.  At point [k] of
    an element they are the difference between the variable of the node and parameter
    [k] of the connected entry, counted over the inputs and then the outputs. *)
Definition couples (points : nat -> list Q) (degree : nat) (tau first : sym) (ins outs : list sym)
  (alg eqs : list expr) : Prop :=
  length alg = length ins /\ length eqs = length outs /\
  (forall i, i < length ins ->
     is_worth points degree tau (nth i alg (EConst 0%Q))
       (fun env k => env (nth i ins 0%nat) - env (first + i * degree + k)%nat)%Q) /\
  (forall i, i < length outs ->
     is_worth points degree tau (nth i eqs (EConst 0%Q))
       (fun env k => env (first + (length ins + i) * degree + k)%nat - env (nth i outs 0%nat))%Q).

(** The equations are added to the problem with their parameters, the inputs become
    algebraic variables, and the new indices are recorded. *)
Definition prepared (points : nat -> list Q) (degree : nat) (ins outs : list sym) (s s' : exo) : Prop :=
  let o := e_problem s in let o' := e_problem s' in
  let m := o_model o in let m' := o_model o' in
  (exists alg eqs, couples points degree (m_tau m) (e_next s) ins outs alg eqs /\
     m_alg m' = m_alg m ++ alg /\ o_g_eq o' = o_g_eq o ++ eqs /\
     o_when_eq o' = o_when_eq o ++ repeat "default"%string (length outs)) /\
  m_theta m' = m_theta m ++ seq (e_next s) ((length ins + length outs) * degree) /\
  e_next s' = (e_next s + (length ins + length outs) * degree)%nat /\
  m_y m' = m_y m ++ ins /\
  m_u m' = filter (fun v => negb (existsb (Nat.eqb v) ins)) (m_u m) /\
  rl_alg (e_relax s') = rl_alg (e_relax s) ++ seq (length (m_alg m)) (length ins) /\
  rl_eq (e_relax s') = rl_eq (e_relax s) ++ seq (length (o_g_eq o)) (length outs) /\
  (NoDup (m_y m ++ ins) -> rl_y (e_relax s') = rl_y (e_relax s) ++ seq (length (m_y m)) (length ins)).

(** The rest of the problem. *)
Definition kept_problem (o o' : ocp) : Prop :=
  o_L o' = o_L o /\ o_V o' = o_V o /\ o_S o' = o_S o /\ o_h o' = o_h o /\ o_h_initial o' = o_h_initial o /\
  o_h_final o' = o_h_final o /\ o_g_ineq o' = o_g_ineq o /\ o_when_ineq o' = o_when_ineq o /\
  o_t_0 o' = o_t_0 o /\ o_t_f o' = o_t_f o /\ o_x_0 o' = o_x_0 o /\ o_eta o' = o_eta o /\
  o_x_min o' = o_x_min o /\ o_x_max o' = o_x_max o /\
  o_p_opt o' = o_p_opt o /\ o_theta_opt o' = o_theta_opt o /\
  m_x (o_model o') = m_x (o_model o) /\ m_ode (o_model o') = m_ode (o_model o) /\
  m_p (o_model o') = m_p (o_model o) /\ m_t (o_model o') = m_t (o_model o) /\ m_tau (o_model o') = m_tau (o_model o).

(** ** The far ends of the connections *)

(** A variable of another node: one of its outputs, or one of its inputs. *)
Inductive far_end := FarOutput (b : addr) (v : sym) | FarInput (b : addr) (v : sym).
Definition far_ends (net : dnet) (a : addr) : list far_end :=
  flat_map (fun pc => map (FarOutput (fst pc)) (fst (snd pc))) (dn_pred net a) ++
  flat_map (fun sc => map (FarInput (fst sc)) (snd (snd sc))) (dn_succ net a).

(** The variable is entry [i] of its vector, and nothing else. *)
Definition is_entry (v : sym) (vars : list sym) (i : nat) : Prop := nth_error vars i = Some v /\ NoDup vars.

(** Its value at point [k] of element [el]: from the last result of its node, else from the
    guess, else zero. *)
Definition far_value (net : dnet) (last : results) (el k : nat) (f : far_end) (q : Q) : Prop :=
  match f with
  | FarOutput b v => exists i, is_entry v (dn_y net b) i /\
      q = match result_of last b with
          | Some r => nth i (nth k (nth el (w_y (nr_data r)) []) []) 0%Q
          | None => match dn_y_guess net b with Some g => nth i g 0%Q | None => 0%Q end
          end
  | FarInput b v => exists i, is_entry v (dn_u net b) i /\
      q = match result_of last b with
          | Some r => nth i (nth k (nth el (w_u (nr_data r)) []) []) 0%Q
          | None => match dn_u_guess net b with Some g => nth i g 0%Q | None => 0%Q end
          end
  end.
Definition far_known (net : dnet) (f : far_end) : Prop :=
  match f with
  | FarOutput b v => In v (dn_y net b) /\ NoDup (dn_y net b)
  | FarInput b v => In v (dn_u net b) /\ NoDup (dn_u net b)
  end.
(** The results hold [degree] points in every element. *)
Definition full_results (opts : dal_options) (last : results) : Prop :=
  forall b r el, result_of last b = Some r -> (el < do_elements opts)%nat ->
    length (nth el (w_y (nr_data r)) []) = do_degree opts /\ length (nth el (w_u (nr_data r)) []) = do_degree opts.
(** The parameters have these values. *)
Definition takes (env : sym -> Q) (ps : list sym) (vs : list Q) : Prop :=
  Forall2 (fun p v => (env p == v)%Q) ps vs.

(** ** A node between two others *)

(** Node 1 is fed with the output 10 of node 0 as its input 20, and its output 21 is the
    input 30 of node 2.  It has a second input 24, and the parameters [own]. *)
Definition relay_net : dnet :=
  mkDnet [0; 1; 2]%nat
    (fun a => match a with 1 => [(0, ([10], [20]))] | 2 => [(1, ([21], [30]))] | _ => [] end)%nat
    (fun a => match a with 0 => [(1, ([10], [20]))] | 1 => [(2, ([21], [30]))] | _ => [] end)%nat
    (fun a => match a with 0 => [10] | 1 => [21] | _ => [] end)%nat
    (fun a => match a with 1 => [20; 24] | 2 => [30] | _ => [] end)%nat
    (fun a => match a with 0%nat => Some [4%Q] | _ => None end) (fun _ => None) Z.of_nat.
Definition relay_options : dal_options :=
  mkDal 2%nat 1%nat 1%nat None 1%nat (1 # 10)%Q (1 # 100)%Q false "cyclic" "constant" 10%Q 2%Q 2%Q.
Definition relay_points (degree : nat) : list Q := [(1 # 3)%Q; 1%Q].
Definition relay_model (own : list sym) : model :=
  mkModel [22%nat] [23%nat] [(22%nat, Some (EBin OSub (EVar 20) (EVar 22)))] [21%nat]
    [EBin OSub (EVar 21) (EVar 22)] [20; 24]%nat [20; 24]%nat [EVar 20; EVar 24] [] [] own 1%nat 2%nat false.
Definition relay_start (own : list sym) : res exo :=
  match new_ocp (relay_model own) (Some [1%Q]) 0%Q 1%Q with
  | Ok o => Ok (mkExo o 100%nat (mkRelax [] [] []))
  | Raise e => Raise e
  end.
(** Node 2 has answered 7 and then 8 in the element. *)
Definition relay_results : results :=
  [(2%nat, mkNodeResult true 0%Q [] (mkResult 1 2 0 1 [0; 1]%Q [] [] [] [] [] [[[]; []]] [[[7%Q]; [8%Q]]]
                                       [] [] [] [] [] [] [] [] [] [] None))].

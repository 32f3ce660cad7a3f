(** Vocabulary for the distributed method with averaged connections. *)
From Coq Require Import String.
From Verif Require Import Base UtilModel ExprModel LagSpec SysModel NlpModel NlpSpec OcpModel ResModel NetModel DalModel DalSpec ExoModel ExoSpec BipModel.
Local Open Scope list_scope.

(** ** What the preparation adds *)

(** The parameters of a vector of [n] entries, from symbol [first] on: entry [i] at point
    [k] is [first + i * degree + k].  They are listed point by point. *)
Definition by_point (degree : nat) (first : sym) (n : nat) : list sym :=
  flat_map (fun k => map (fun i => first + i * degree + k)%nat (seq 0 n)) (seq 0 degree).
(** Two vectors of parameters for each connection. *)
Fixpoint two_each (degree : nat) (first : sym) (sizes : list nat) : list sym :=
  match sizes with
  | [] => []
  | n :: sizes' => by_point degree first n ++ by_point degree (first + n * degree) n ++
                   two_each degree (first + 2 * (n * degree)) sizes'
  end.

(** For each connection, joining the variables [vs], an equation for each of them: at
    point [k] of an element it is [diff] of the variable and the mean of its two
    parameters there. *)
Fixpoint averages (points : nat -> list Q) (degree : nat) (tau : sym) (diff : Q -> Q -> Q) (first : sym)
  (blocks : list (list sym)) (eqs : list (list expr)) : Prop :=
  match blocks, eqs with
  | [], [] => True
  | vs :: blocks', es :: eqs' =>
      length es = length vs /\
      (forall i, i < length vs ->
         is_worth points degree tau (nth i es (EConst 0%Q))
           (fun env k => diff (env (nth i vs 0%nat))
              ((env (first + i * degree + k)%nat + env (first + (length vs + i) * degree + k)%nat) / 2))%Q) /\
      averages points degree tau diff (first + 2 * (length vs * degree)) blocks' eqs'
  | _, _ => False
  end.
Definition input_minus (v mean : Q) : Q := (v - mean)%Q.
Definition mean_minus (v mean : Q) : Q := (mean - v)%Q.

(** The number of connected variables. *)
Definition joined (blocks : list (list sym)) : nat := length (concat blocks).

Definition averaging (points : nat -> list Q) (degree : nat) (ins outs : list (list sym)) (s s' : exo) : Prop :=
  let o := e_problem s in let o' := e_problem s' in
  let m := o_model o in let m' := o_model o' in
  let middle := (e_next s + 2 * (joined ins * degree))%nat in
  (exists alg eqs,
     averages points degree (m_tau m) input_minus (e_next s) ins alg /\
     averages points degree (m_tau m) mean_minus middle outs eqs /\
     m_alg m' = m_alg m ++ concat alg /\ o_g_eq o' = o_g_eq o ++ concat eqs /\
     o_when_eq o' = o_when_eq o ++ repeat "default"%string (joined outs)) /\
  m_theta m' = m_theta m ++ two_each degree (e_next s) (map (@length sym) ins) ++
                            two_each degree middle (map (@length sym) outs) /\
  e_next s' = (middle + 2 * (joined outs * degree))%nat /\
  m_y m' = m_y m ++ concat ins /\
  m_u m' = filter (fun v => negb (existsb (Nat.eqb v) (concat ins))) (m_u m) /\
  rl_alg (e_relax s') = rl_alg (e_relax s) ++ seq (length (m_alg m)) (joined ins) /\
  rl_eq (e_relax s') = rl_eq (e_relax s) ++ seq (length (o_g_eq o)) (joined outs) /\
  (NoDup (m_y m ++ concat ins) -> rl_y (e_relax s') = rl_y (e_relax s) ++ seq (length (m_y m)) (joined ins)).

(** ** What the method passes to a node *)

(** The variables whose last values node [a] is given. *)
Definition pair_of_pred (a : addr) (pc : addr * conn) : list far_end :=
  map (FarOutput (fst pc)) (fst (snd pc)) ++ map (FarInput a) (snd (snd pc)).
Definition pair_of_succ (a : addr) (sc : addr * conn) : list far_end :=
  map (FarInput (fst sc)) (snd (snd sc)) ++ map (FarOutput a) (fst (snd sc)).
Definition both_ends (net : dnet) (a : addr) : list far_end :=
  flat_map (pair_of_pred a) (dn_pred net a) ++ flat_map (pair_of_succ a) (dn_succ net a).
(** The values in element [el]. *)
Definition passed (th : theta Q) (el : nat) : list Q :=
  match dget Nat.eqb el th with Some v => v | None => [] end.
(** They are those of the variables, variable by variable. *)
Definition by_variable (opts : dal_options) (net : dnet) (last : results) (el : nat) (ends : list far_end) (vs : list Q) : Prop :=
  length vs = (length ends * do_degree opts)%nat /\
  forall i k f, nth_error ends i = Some f -> k < do_degree opts ->
    far_value net last el k f (nth (i * do_degree opts + k) vs 0%Q).
(** The attribute [model] of the nodes has the variables of the problem. *)
Definition models_agree (net : dnet) (attr : addr -> list sym * list sym) : Prop :=
  forall b, attr b = (dn_y net b, dn_u net b).

(** ** What the equations say *)

(** The mean of the last values of variable number [e] of the two ends of a connection, at
    point [k]. *)
Definition mean_of_ends (net : dnet) (last : results) (el : nat) (here there : sym -> far_end) (mine theirs : list sym)
  (e k : nat) (mean : Q) : Prop :=
  exists v w,
    far_value net last el k (there (nth e theirs 0%nat)) v /\
    far_value net last el k (here (nth e mine 0%nat)) w /\
    (mean == (v + w) / 2)%Q.
(** The equations of a connection are [diff] of the variables of the node and the means;
    the equation of variable number [i] has the mean of the variable and at the point
    [read i]. *)
Definition say (net : dnet) (last : results) (el : nat) (F : nat -> Q -> Q) (env : sym -> Q) (diff : Q -> Q -> Q)
  (here there : sym -> far_end) (mine theirs : list sym) (read : nat -> nat * nat) (es : list expr) : Prop :=
  length es = length mine /\
  forall i, i < length mine -> exists mean,
    mean_of_ends net last el here there mine theirs (fst (read i)) (snd (read i)) mean /\
    (eval F env (nth i es (EConst 0%Q)) == diff (env (nth i mine 0%nat)) mean)%Q.
(** All equations of node [a] at point [k], where [read n k i] is what the equation of
    variable [i] of [n] has. *)
Definition all_say (net : dnet) (last : results) (a : addr) (el k : nat) (F : nat -> Q -> Q) (env : sym -> Q)
  (read : nat -> nat -> nat -> nat * nat) (alg eqs : list (list expr)) : Prop :=
  Forall2 (fun pc es => say net last el F env input_minus (FarInput a) (FarOutput (fst pc)) (snd (snd pc)) (fst (snd pc))
                          (read (length es) k) es) (dn_pred net a) alg /\
  Forall2 (fun sc es => say net last el F env mean_minus (FarOutput a) (FarInput (fst sc)) (fst (snd sc)) (snd (snd sc))
                          (read (length es) k) es) (dn_succ net a) eqs.
(** What it should have: the same variable at the same point. *)
Definition same_place (n k i : nat) : nat * nat := (i, k).
(** Number [k * n + i] counted variable by variable. *)
Definition transposed (degree n k i : nat) : nat * nat := ((k * n + i) / degree, (k * n + i) mod degree)%nat.

(** The problem of node [a] has been prepared, and the method passes [th]. *)
Definition averaging_node (points : nat -> list Q) (opts : dal_options) (net : dnet) (attr : addr -> list sym * list sym)
  (last : results) (a : addr) (s s' : exo) (th : theta Q) : Prop :=
  good_points points (do_degree opts) /\ models_agree net attr /\
  bip_exogenous points (do_degree opts) (map snd (dn_pred net a)) (map snd (dn_succ net a)) s = (s', Ok tt) /\
  Forall (far_known net) (both_ends net a) /\ full_results opts last /\
  bip_theta opts net attr last a = Ok th.

(** Connections of one variable, or one point in an element. *)
Definition simple (degree : nat) (conns : list conn) : Prop :=
  degree = 1%nat \/ Forall (fun c => length (fst c) = 1%nat /\ length (snd c) = 1%nat) conns.

(** ** Nodes for the examples *)

(** Node 1 is fed with 10 and 11 as its inputs 20 and 24.  Node 0 has answered 1 and 2 for
    10, and 3 and 4 for 11; node 1 has answered 5 and 6 for 20, and 7 and 8 for 24. *)
Definition pipes_net : dnet :=
  mkDnet [0; 1]%nat
    (fun a => match a with 1 => [(0, ([10; 11], [20; 24]))] | _ => [] end)%nat
    (fun a => match a with 0 => [(1, ([10; 11], [20; 24]))] | _ => [] end)%nat
    (fun a => match a with 0 => [10; 11] | 1 => [21] | _ => [] end)%nat
    (fun a => match a with 1 => [20; 24] | _ => [] end)%nat
    (fun _ => None) (fun _ => None) Z.of_nat.
Definition pipes_results : results :=
  [(0%nat, mkNodeResult true 0%Q [] (mkResult 1 2 0 1 [0; 1]%Q [] [] [] [] [] [[[1; 3]; [2; 4]]]%Q [[[]; []]]
                                       [] [] [] [] [] [] [] [] [] [] None));
   (1%nat, mkNodeResult true 0%Q [] (mkResult 1 2 0 1 [0; 1]%Q [] [] [] [] [] [[[0]; [0]]]%Q [[[5; 7]; [6; 8]]]%Q
                                       [] [] [] [] [] [] [] [] [] [] None))].
Definition pipes_attr (a : addr) : list sym * list sym := (dn_y pipes_net a, dn_u pipes_net a).
(** The node of [relay_net] has answered: its problem has the inputs 24 and 20, in this
    order, after the preparation. *)
Definition relaxed_net : dnet :=
  mkDnet (dn_nodes relay_net) (dn_pred relay_net) (dn_succ relay_net) (dn_y relay_net)
    (fun a => match a with 1 => [24; 20] | 2 => [30] | _ => [] end)%nat
    (dn_y_guess relay_net) (dn_u_guess relay_net) (dn_id relay_net).
Definition relaxed_results : results :=
  (1%nat, mkNodeResult true 0%Q [] (mkResult 1 2 0 1 [0; 1]%Q [] [] [] [] [] [[[9]; [9]]]%Q [[[50; 2]; [60; 3]]]%Q
                                      [] [] [] [] [] [] [] [] [] [] None)) :: relay_results.

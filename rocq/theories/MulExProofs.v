(** The example of updated multipliers. *)
From Coq Require Import String Qabs Lqa Setoid.
From Verif Require Import Base BaseProofs UtilModel ExprModel ExprProofs NlpModel NlpSpec SysModel SysSpec
  OcpModel OcpSpec LagModel LagSpec DiscModel DiscSpec ColSpec DirSpec AugModel AugSpec AlsSpec AlsTopProofs AlsExProofs
  IndSpec IndCalcProofs MulSpec MulProofs.
Local Open Scope list_scope.
Local Open Scope nat_scope.

(** Level 1, inflow 1 + t and outflow 2 + t; weight 1, multipliers 2 and 3. *)
Definition tank_q (t : Q) : trajectory :=
  mkTrajectory (fun _ i => match i with 0 => [1%Q] | _ => [] end) (fun _ _ => [(2 + t)%Q]) (fun _ => [(1 + t)%Q; (1 + t)%Q])
    [] (fun _ => []) [] [1%Q; 0%Q] [].
Definition tank_c (t : Q) (el i : nat) : list Q := [(1 + t)%Q].
Definition tank_q' (t : Q) : trajectory :=
  mkTrajectory (fun _ i => match i with 0 => [1%Q] | _ => [] end) (fun _ _ => [])
    (fun _ => [(1 + t)%Q; (2 + t)%Q; (1 + t)%Q; (2 + t)%Q]) [1%Q] (fun _ => [2%Q; 3%Q]) [] [1%Q; 0%Q] [].
Definition tank_c' (t : Q) (el i : nat) : list Q := match i with 0 => [(1 + t)%Q] | _ => [(2 + t)%Q] end.
Definition ident (_ : nat) (x : Q) : Q := x.

Lemma tank_value : forall t el tau, (eval ident (user_point (rx_problem drain_rx) 2 (tank_q' t) (tank_c' t) el tau) (EBin OSub (EVar 20%nat) (EVar 10%nat)) == 1 + t)%Q.
Proof. intros t el tau. cbn [eval]. unfold user_point. cbn -[Qplus Qmult Qminus]. ring. Qed.
Lemma tank_variation : variation ident drain_o whole drain_rx drain_k2 (radau 2) tank_q tank_c tank_q' tank_c'.
Proof.
  constructor.
  - intros t. constructor; intros; cbn; try reflexivity; try lia. destruct i; cbn; lia.
  - intros t. constructor.
    + intros el i Hel Hi. reflexivity.
    + intros el i j Hel Hj. destruct j; discriminate.
    + intros el i j Hel Hj. destruct j as [|j]; [injection Hj as <-; reflexivity|destruct j; discriminate].
    + intros el i Hel Hi. cbn in Hi. assert (i = 0) by lia. subst i. reflexivity.
    + intros el i Hel Hi. cbn in Hi. assert (i = 0) by lia. subst i. reflexivity.
    + reflexivity.
    + reflexivity.
    + repeat split; reflexivity.
  - intros t. split; reflexivity.
  - intros el tau g Hel Ht [<-|[]]. exists 1%Q.
    apply (derivative_ext (fun t => 1 + t)%Q _ 0%Q (0 + 1)%Q); [intros t; symmetry; apply tank_value|ring|].
    apply derivative_add; [apply derivative_const|apply derivative_id].
Qed.
Lemma tank_cost : forall t, (user_cost ident (rx_problem drain_rx) 2 (tank_q' t) (tank_c' t) (EConst 0) drain_l' (EConst 0) (radau 2) [3 # 4; 1 # 4]
    == 3 * ((1 + t) * (1 + t)) + (9 # 2) * (1 + t))%Q.
Proof.
  intros t. unfold user_cost, drain_l'. cbn -[Qplus Qmult Qminus Qdiv Qinv user_step].
  assert (E : (user_step (rx_problem drain_rx) 2 == 1)%Q) by (vm_compute; reflexivity). rewrite E. field.
Qed.
Lemma tank_slope : has_derivative (fun t => user_cost ident (rx_problem drain_rx) 2 (tank_q' t) (tank_c' t) (EConst 0) drain_l' (EConst 0) (radau 2) [(3 # 4)%Q; (1 # 4)%Q]) 0%Q (21 # 2)%Q.
Proof.
  assert (D : has_derivative (fun t => 1 + t)%Q 0%Q (0 + 1)%Q) by (apply derivative_add; [apply derivative_const|apply derivative_id]).
  pose proof (derivative_add _ _ _ _ _ (derivative_scale _ _ _ 3%Q (derivative_mul _ _ _ _ _ D D)) (derivative_scale _ _ _ (9 # 2)%Q D)) as S.
  cbn beta in S. apply (derivative_ext _ _ _ _ (21 # 2)%Q (fun t => Qeq_sym _ _ (tank_cost t))) in S; [exact S|vm_compute; reflexivity].
Qed.
(** The vector a solver would return for this trajectory, and the attributes before. *)
Definition tank_solution : traj Q :=
  mkTraj (repeat (repeat [1%Q; 0%Q] 3) 2) (repeat [[]; []] 2) (repeat (repeat [1%Q; 2%Q] 2) 2) [] [] [[]; []].
Definition tank_state : aug_state := start_aug drain_options drain_rx (Some [(0, [2%Q; 3%Q]); (1, [2%Q; 3%Q])]).
Definition tank_augmented : augmented :=
  mkAugmented drain_k2 (seq 300 (collocation_size drain_k2)) (rx_alg drain_rx) (rx_eq drain_rx) (rx_mu_sym drain_rx) (rx_nu_pol drain_rx).
Definition tank_updated : aug_state := Eval vm_compute in
  fst (update_parameters ident drain_options (create_nu_update_func radau tank_augmented) 2 None None (flatten tank_solution) tank_state).
Definition tank_errors : list Q := Eval vm_compute in
  match snd (update_parameters ident drain_options (create_nu_update_func radau tank_augmented) 2 None None (flatten tank_solution) tank_state) with
  | Ok e => e | Raise _ => [] end.

Lemma tank_fitting : fitting tank_augmented (m_p (o_model drain_o)) (m_theta (o_model drain_o)) tank_state None None.
Proof.
  constructor; try reflexivity. intros el Hel. destruct (two_elements el Hel) as [-> | ->]; eexists; split; reflexivity.
Qed.
Lemma tank_shape : collocation_shape drain_k2 tank_solution.
Proof. vm_compute. repeat split; repeat constructor. Qed.
Lemma tank_reads : reads drain_k2 (radau 2) tank_solution (given_p None ++ st_mu tank_state) (fun el => given_in None el ++ nu_in tank_state el) (tank_q' 0).
Proof.
  constructor; try reflexivity.
  - intros el i Hel Hi. cbn in Hi. split; [destruct i as [|[|i]]; cbn; lia|]. intros j tau v Hj Hv.
    destruct (two_elements el Hel) as [-> | ->]; destruct i as [|[|i]]; try lia; destruct j as [|[|[|j]]]; try (destruct j; discriminate Hj);
      cbn in Hj, Hv; injection Hj as <-; injection Hv as <-; cbn; reflexivity.
  - intros el i Hel Hi. cbn in Hi. lia.
  - intros el l Hl. destruct el as [|[|el]]; [| |destruct el; discriminate]; cbn in Hl; injection Hl as <-; reflexivity.
  - intros el Hel. destruct (two_elements el Hel) as [-> | ->]; reflexivity.
Qed.
Lemma tank_followed : followed (rx_problem drain_rx) 2 (radau 2) (tank_q' 0) (tank_c' 0).
Proof.
  intros el Hel i Hi. cbn in Hi. split; [destruct i; cbn; lia|].
  intros j tau v Ht Hv. assert (Ei : i = 0 \/ i = 1) by lia. destruct j as [|[|j]]; [| |destruct j; discriminate]; cbn in Ht; injection Ht as <-;
    destruct Ei as [-> | ->]; cbn in Hv; injection Hv as <-; vm_compute; reflexivity.
Qed.
Lemma tank_update : update_parameters ident drain_options (create_nu_update_func radau tank_augmented) 2 None None (flatten tank_solution) tank_state
    = (tank_updated, Ok tank_errors).
Proof. vm_compute. reflexivity. Qed.
Lemma tank_new : forall e v, In e (written drain_o) -> In v (60 :: 61 :: m_u_par (k_model drain_k2)) -> ~ mentions e v.
Proof.
  intros e v He Hv M. cbn in He. cbn in Hv. one_of; subst; cbn in M; one_of; subst; try contradiction; try discriminate.
Qed.
Lemma ident_respects : respects ident.
Proof. intros f a b H. exact H. Qed.
Lemma w_tank_first_order : exists o rx k nl s r l' q c q' c',
    drain_problem [] = Ok o /\ drain_relaxed [] whole = Ok rx /\ drain_method [] whole 2 = Ok k /\
    relaxation same_expr radau drain_options whole o 100 rx /\
    direct_setting radau (fun _ e => e) k 1000 nl s r (rx_problem rx) 60 61 200 /\ al_degree drain_options = k_degree k /\
    o_L o = [drain_cost] /\ o_V o = [EConst 0] /\ o_S o = [EConst 0] /\ o_L (rx_problem rx) = [l'] /\
    variation (fun _ x => x) o whole rx k (radau (k_degree k)) q c q' c' /\
    has_derivative (fun t => user_cost (fun _ x => x) (rx_problem rx) (k_elements k) (q' t) (c' t) (EConst 0) l' (EConst 0)
      (radau (k_degree k)) [3 # 4; 1 # 4]%Q) 0%Q (21 # 2)%Q /\
    (forall el, el < k_elements k -> Forall2 Qeq (raised (fun _ x => x) rx (k_elements k) (q' 0%Q) (c' 0%Q) el (1 # 3)%Q) [3%Q] /\
       Forall2 Qeq (raised (fun _ x => x) rx (k_elements k) (q' 0%Q) (c' 0%Q) el 1%Q) [4%Q]).
Proof.
  exists drain_o, drain_rx, drain_k2, (fst (fst drain_nlp2)), (snd (fst drain_nlp2)), (snd drain_nlp2), drain_l', tank_q, tank_c, tank_q', tank_c'.
  split; [exact drain_problem_is|]. split; [exact drain_relaxed_is|]. split; [exact drain_method2_is|].
  split; [exact drain_relaxation|]. split; [exact drain_setting2|]. do 5 (split; [reflexivity|]).
  split; [exact tank_variation|]. split; [exact tank_slope|].
  intros el Hel. destruct (two_elements el Hel) as [-> | ->]; split; constructor; try constructor; vm_compute; reflexivity.
Qed.
Lemma w_tank_updated : exists o rx k nl s r vars st tr q' c' st' errors d,
    drain_problem [] = Ok o /\ drain_relaxed [] whole = Ok rx /\ drain_method [] whole 2 = Ok k /\
    relaxation same_expr radau drain_options whole o 100 rx /\
    direct_setting radau (fun _ e => e) k 1000 nl s r (rx_problem rx) 60 61 200 /\ al_degree drain_options = k_degree k /\
    o_p_opt o = [] /\ o_theta_opt o = [] /\
    (forall e v, In e (written o) -> In v (60 :: 61 :: m_u_par (k_model k)) -> ~ mentions e v) /\ NoDup vars /\
    let a := mkAugmented k vars (rx_alg rx) (rx_eq rx) (rx_mu_sym rx) (rx_nu_pol rx) in
    fitting a (m_p (o_model o)) (m_theta (o_model o)) st None None /\ collocation_shape k tr /\
    reads k (radau (k_degree k)) tr (given_p None ++ st_mu st) (fun el => given_in None el ++ nu_in st el) q' /\
    followed (rx_problem rx) (k_elements k) (radau (k_degree_control k)) q' c' /\
    al_skip_compute drain_options = false /\ al_skip_nu drain_options = false /\ al_improve drain_options = false /\
    update_parameters (fun _ x => x) drain_options (create_nu_update_func radau a) (k_elements k) None None (flatten tr) st = (st', Ok errors) /\
    st_nu_tilde st' = Some d /\
    forall el, el < k_elements k -> exists x y, multiplier d 1 el 0 0 = Some x /\ multiplier d 1 el 1 0 = Some y /\ (x == 3)%Q /\ (y == 4)%Q.
Proof.
  exists drain_o, drain_rx, drain_k2, (fst (fst drain_nlp2)), (snd (fst drain_nlp2)), (snd drain_nlp2), (seq 300 (collocation_size drain_k2)),
    tank_state, tank_solution, (tank_q' 0%Q), (tank_c' 0%Q), tank_updated, tank_errors,
    (match st_nu_tilde tank_updated with Some d => d | None => [] end).
  split; [exact drain_problem_is|]. split; [exact drain_relaxed_is|]. split; [exact drain_method2_is|].
  split; [exact drain_relaxation|]. split; [exact drain_setting2|]. do 3 (split; [reflexivity|]).
  split; [exact tank_new|]. split; [apply seq_NoDup|]. cbv zeta.
  split; [exact tank_fitting|]. split; [exact tank_shape|]. split; [exact tank_reads|]. split; [exact tank_followed|].
  do 3 (split; [reflexivity|]). split; [exact tank_update|]. split; [reflexivity|].
  intros el Hel. destruct (two_elements el Hel) as [-> | ->]; do 2 eexists; (split; [reflexivity|]); (split; [reflexivity|]); split; vm_compute; reflexivity.
Qed.

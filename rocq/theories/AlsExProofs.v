(** The examples of relaxed problems. *)
From Coq Require Import String Qabs Lqa Sorted Setoid.
From Verif Require Import Base BaseProofs UtilModel ExprModel ExprProofs NlpModel NlpSpec SysModel SysSpec SysProofs
  OcpModel OcpSpec SimModel LagModel LagSpec LagProofs DiscModel DiscSpec DiscProofs ColSpec ColEvalProofs ColPolyProofs
  ColElementProofs ColMainProofs ColTopProofs DirSpec DirProofs DirColProofs DirTopProofs DirExProofs AugModel AugSpec AlsSpec AlsTopProofs.
Local Open Scope list_scope.
Local Open Scope nat_scope.

Definition drain_o : ocp := Eval vm_compute in
  match drain_problem [] as x return (match x with Ok _ => ocp | Raise _ => unit end) with Ok o => o | Raise _ => tt end.
Definition drain_rx : relaxing := Eval vm_compute in
  match drain_relaxed [] whole as x return (match x with Ok _ => relaxing | Raise _ => unit end) with Ok o => o | Raise _ => tt end.
Definition drain_k2 : method := Eval vm_compute in
  match drain_method [] whole 2 as x return (match x with Ok _ => method | Raise _ => unit end) with Ok k => k | Raise _ => tt end.
Definition drain_nlp2 : nlp * par_syms * traj sym := Eval vm_compute in
  match create_optimization_problem (collocation_discretize radau (fun _ e => e) drain_k2) drain_k2 1000 as x
        return (match x with Ok _ => (nlp * par_syms * traj sym)%type | Raise _ => unit end) with Ok k => k | Raise _ => tt end.
Definition drain_k1 : method := Eval vm_compute in
  match drain_method [] whole 1 as x return (match x with Ok _ => method | Raise _ => unit end) with Ok k => k | Raise _ => tt end.
Definition drain_nlp1 : nlp * par_syms * traj sym := Eval vm_compute in
  match create_optimization_problem (collocation_discretize radau (fun _ e => e) drain_k1) drain_k1 1000 as x
        return (match x with Ok _ => (nlp * par_syms * traj sym)%type | Raise _ => unit end) with Ok k => k | Raise _ => tt end.

Lemma same_expr_spec : forall a b, same_expr a b = true <-> a = b.
Proof. intros a b. unfold same_expr. destruct (expr_eq_dec a b) as [E|E]; split; congruence. Qed.
Lemma drain_problem_is : drain_problem [] = Ok drain_o.
Proof. vm_compute. reflexivity. Qed.
Lemma drain_relaxed_is : drain_relaxed [] whole = Ok drain_rx.
Proof. vm_compute. reflexivity. Qed.
Lemma drain_method2_is : drain_method [] whole 2 = Ok drain_k2.
Proof. vm_compute. reflexivity. Qed.
Lemma drain_method1_is : drain_method [] whole 1 = Ok drain_k1.
Proof. vm_compute. reflexivity. Qed.
Ltac one_of := repeat match goal with H : _ \/ _ |- _ => destruct H | H : False |- _ => destruct H end.
Lemma drain_old : written_before drain_o 100.
Proof.
  split.
  - intros e v He Hv. cbn in He. one_of; subst; cbn in Hv; one_of; subst; try contradiction; lia.
  - intros v [<-|[]]. lia.
Qed.
Lemma radau_distinct : distinct (radau 2).
Proof. intros [|[|i]] [|[|j]] Hi Hj; cbn in *; try lia; try reflexivity; intros C; discriminate. Qed.
Lemma drain_relaxation : relaxation same_expr radau drain_options whole drain_o 100 drain_rx.
Proof.
  constructor.
  - exact same_expr_spec.
  - constructor; try reflexivity.
    + split; repeat constructor; intros [].
    + unfold aligned. cbn. repeat match goal with |- _ /\ _ => split end; try reflexivity; exact I.
    + split; intros v [].
    + exact drain_old.
    + split; [repeat constructor; intros []|constructor].
    + intros i w [].
  - constructor; [split; reflexivity|cbn; lia|]. split; [reflexivity|]. exact radau_distinct.
  - vm_compute. reflexivity.
Qed.

Lemma drain_setting2 : direct_setting radau (fun _ e => e) drain_k2 1000 (fst (fst drain_nlp2)) (snd (fst drain_nlp2)) (snd drain_nlp2)
    (rx_problem drain_rx) 60 61 200.
Proof.
  constructor.
  - constructor.
    + vm_compute. lia.
    + vm_compute. reflexivity.
    + split; [unfold aligned; vm_compute; repeat split|].
      repeat (split; [apply in_order_ok; vm_compute; reflexivity|]). apply in_order_ok; vm_compute; reflexivity.
    + apply nodup_ok. vm_compute. reflexivity.
    + split; [|split]; [split; intros v []|constructor|constructor].
    + split; [reflexivity|]. intros v oe [E|[E|[]]]; injection E as <- <-; eexists; reflexivity.
    + reflexivity.
    + reflexivity.
    + discriminate.
  - vm_compute. repeat split; repeat constructor.
  - vm_compute. lia.
  - vm_compute. repeat split; repeat constructor.
  - vm_compute. reflexivity.
  - constructor.
    + split; [reflexivity|]. intros v oe [E|[]]; injection E as <- <-; eexists; reflexivity.
    + reflexivity.
    + apply nodup_ok. vm_compute. reflexivity.
    + intros e v He Hv M. cbn in He. cbn in Hv.
      one_of; subst; cbn in M; one_of; subst; try contradiction; try discriminate.
  - vm_compute. reflexivity.
  - reflexivity.
Qed.
Lemma drain_setting1 : direct_setting radau (fun _ e => e) drain_k1 1000 (fst (fst drain_nlp1)) (snd (fst drain_nlp1)) (snd drain_nlp1)
    (rx_problem drain_rx) 60 61 200.
Proof.
  constructor.
  - constructor.
    + vm_compute. lia.
    + vm_compute. reflexivity.
    + split; [unfold aligned; vm_compute; repeat split|].
      repeat (split; [apply in_order_ok; vm_compute; reflexivity|]). apply in_order_ok; vm_compute; reflexivity.
    + apply nodup_ok. vm_compute. reflexivity.
    + split; [|split]; [split; intros v []|constructor|constructor].
    + split; [reflexivity|]. intros v oe [E|[E|[]]]; injection E as <- <-; eexists; reflexivity.
    + reflexivity.
    + reflexivity.
    + discriminate.
  - vm_compute. repeat split; repeat constructor.
  - vm_compute. lia.
  - vm_compute. repeat split; repeat constructor.
  - vm_compute. reflexivity.
  - constructor.
    + split; [reflexivity|]. intros v oe [E|[]]; injection E as <- <-; eexists; reflexivity.
    + reflexivity.
    + apply nodup_ok. vm_compute. reflexivity.
    + intros e v He Hv M. cbn in He. cbn in Hv.
      one_of; subst; cbn in M; one_of; subst; try contradiction; try discriminate.
  - vm_compute. reflexivity.
  - reflexivity.
Qed.
Lemma drain_rule : exact_rule (radau 2) [(3 # 4)%Q; (1 # 4)%Q].
Proof.
  split; [reflexivity|]. cbn [radau]. intros [|c0 [|c1 [|c2 [|c3 c]]]] L; try (cbn in L; lia); cbn; ring.
Qed.

(** ** The tank drains *)

Definition drain_scale (el : nat) : Q := match el with 0 => 1%Q | _ => (4 # 11)%Q end.
Definition drain_x (el : nat) : list Q := [drain_scale el; (drain_scale el * (-10 # 11))%Q; (drain_scale el * (3 # 11))%Q].
Definition drain_y (el : nat) : list Q := [(drain_scale el * (10 # 11))%Q; (drain_scale el * (-6 # 11))%Q].
(** For the problem of the user, with [n] control points. *)
Definition drain_q (n : nat) : trajectory :=
  mkTrajectory (fun el i => match i with 0 => drain_x el | _ => [] end) (fun el _ => drain_y el) (fun _ => repeat 0%Q n)
    [] (fun _ => []) [] [1%Q; 0%Q] [].
Definition drain_c (el i : nat) : list Q := [].
(** For the relaxed problem: weight 1, multipliers 0. *)
Definition drain_q' : trajectory :=
  mkTrajectory (fun el i => match i with 0 => drain_x el | _ => [] end) (fun _ _ => [])
    (fun el => [0%Q; (drain_scale el * (8 # 11))%Q; 0%Q; (drain_scale el * (4 # 11))%Q])
    [1%Q] (fun _ => [0%Q; 0%Q]) [] [1%Q; 0%Q] [].
Definition drain_c' (el i : nat) : list Q := match i with 0 => [] | _ => drain_y el end.

Lemma two_elements : forall el, el < 2 -> el = 0 \/ el = 1.
Proof. intros el H. lia. Qed.
Lemma drain_sized : sized drain_k2 (radau 2) drain_q'.
Proof.
  constructor; intros; cbn; try reflexivity; try lia. destruct i; cbn; lia.
Qed.
Lemma drain_followed' : followed (rx_problem drain_rx) 2 (radau 2) drain_q' drain_c'.
Proof.
  intros el Hel i Hi. cbn in Hi. split; [destruct i; cbn; lia|].
  intros j tau v Ht Hv. assert (Ei : i = 0 \/ i = 1) by lia. destruct j as [|[|j]]; [| |destruct j; discriminate]; cbn in Ht; injection Ht as <-;
    destruct Ei as [-> | ->]; cbn in Hv; injection Hv as <-; unfold drain_c', drain_y; cbn [poly]; try reflexivity; ring.
Qed.
Lemma drain_collocated' : user_collocated (fun _ x => x) (rx_problem drain_rx) 2 drain_q' drain_c' (radau 2).
Proof.
  constructor.
  - intros e [<-|[]]. cbn. ring.
  - intros el i Hel Hi. cbn in Hi. assert (el = 0) by lia. assert (i = 0) by lia. subst. cbn. ring.
  - intros el tau i v e Hel Ht He. destruct i as [|i]; [|destruct i; discriminate]. cbn in He. injection He as <- <-.
    destruct (two_elements _ Hel) as [-> | ->]; destruct Ht as [<-|[<-|[]]]; vm_compute; reflexivity.
  - intros el tau Hel Ht N. exfalso. apply N. reflexivity.
  - intros el i lo hi Hel Hl Hh. destruct i as [|[|i]]; [| |destruct i; discriminate]; cbn in Hl, Hh; injection Hl as <-; injection Hh as <-; split; exact I.
  - intros el j g w tau Hel Hg. destruct j; discriminate.
  - intros el j g w tau Hel Hg. destruct j; discriminate.
  - intros e [].
  - intros e [].
Qed.
Lemma drain_within' : user_within (rx_problem drain_rx) 2 drain_q' drain_c' (radau 2) (radau 2).
Proof.
  constructor.
  - intros el tau i lo hi Hel Ht Hi Hlo Hhi. cbn in Hi. assert (i = 0) by lia. subst i. cbn in Hlo, Hhi. injection Hlo as <-. injection Hhi as <-. split; exact I.
  - intros el tau i lo hi Hel Ht Hi. cbn in Hi. lia.
  - intros el tau i lo hi Hel Ht Hi Hlo Hhi. cbn in Hi. assert (Ei : i = 0 \/ i = 1) by lia.
    destruct (two_elements _ Hel) as [-> | ->]; destruct Ht as [<-|[<-|[]]]; destruct Ei as [-> | ->]; cbn in Hlo, Hhi; injection Hlo as <-; injection Hhi as <-; vm_compute; split; (discriminate || exact I).
  - intros j i v b lo hi Hj. destruct j; discriminate.
  - intros el j i v b lo hi Hel Hj. destruct j; discriminate.
Qed.
Lemma drain_restored : restored_equations (fun _ x => x) drain_rx 2 drain_q' drain_c' (radau 2).
Proof.
  intros el tau Hel Ht e [<-|[]]. destruct (two_elements _ Hel) as [-> | ->]; destruct Ht as [<-|[<-|[]]]; vm_compute; reflexivity.
Qed.
Lemma drain_collocated : forall n, user_collocated (fun _ x => x) drain_o 2 (drain_q n) drain_c (radau 2).
Proof.
  intros n. constructor.
  - intros e [<-|[]]. cbn. ring.
  - intros el i Hel Hi. cbn in Hi. assert (el = 0) by lia. assert (i = 0) by lia. subst. cbn. ring.
  - intros el tau i v e Hel Ht He. destruct i as [|i]; [|destruct i; discriminate]. cbn in He. injection He as <- <-.
    destruct (two_elements _ Hel) as [-> | ->]; destruct Ht as [<-|[<-|[]]]; vm_compute; reflexivity.
  - intros el tau Hel Ht N e [<-|[]]. destruct (two_elements _ Hel) as [-> | ->]; destruct Ht as [<-|[<-|[]]]; vm_compute; reflexivity.
  - intros el i lo hi Hel Hl Hh. destruct i as [|i]; [|destruct i; discriminate]; cbn in Hl, Hh; injection Hl as <-; injection Hh as <-; split; exact I.
  - intros el j g w tau Hel Hg. destruct j; discriminate.
  - intros el j g w tau Hel Hg. destruct j; discriminate.
  - intros e [].
  - intros e [].
Qed.
Lemma drain_within : forall n upts, (forall tau, In tau upts -> 0 <= tau <= 1)%Q ->
    user_within drain_o 2 (drain_q n) drain_c upts (radau 2).
Proof.
  intros n upts Hu. constructor.
  - intros el tau i lo hi Hel Ht Hi Hlo Hhi. cbn in Hi. assert (i = 0) by lia. subst i. cbn in Hlo, Hhi. injection Hlo as <-. injection Hhi as <-. split; exact I.
  - intros el tau i lo hi Hel Ht Hi Hlo Hhi. cbn in Hi. assert (i = 0) by lia. subst i. cbn in Hlo, Hhi. injection Hlo as <-. injection Hhi as <-.
    destruct (two_elements _ Hel) as [-> | ->]; destruct Ht as [<-|[<-|[]]]; vm_compute; split; (discriminate || exact I).
  - intros el tau i lo hi Hel Ht Hi Hlo Hhi. cbn in Hi. assert (i = 0) by lia. subst i. cbn in Hlo, Hhi; injection Hlo as <-; injection Hhi as <-; vm_compute; split; discriminate.
  - intros j i v b lo hi Hj. destruct j; discriminate.
  - intros el j i v b lo hi Hel Hj. destruct j; discriminate.
Qed.
Lemma drain_same : forall g, same_trajectory drain_o (freed drain_o whole) 2 (drain_q 2) drain_c (with_cost drain_q' 1 g) drain_c'.
Proof.
  intros g. constructor.
  - intros el i Hel Hi. cbn in Hi. assert (i = 0) by lia. subst i. reflexivity.
  - intros el i j Hel Hj. destruct j; discriminate.
  - intros el i j Hel Hj. destruct j as [|j]; [injection Hj as <-; reflexivity|destruct j; discriminate].
  - intros el i Hel Hi. cbn in Hi. assert (i = 0) by lia. subst i. reflexivity.
  - intros el i Hel Hi. cbn in Hi. assert (i = 0) by lia. subst i. reflexivity.
  - reflexivity.
  - reflexivity.
  - repeat split; reflexivity.
Qed.

(** ** Draining is optimal *)

Definition drain_l' : expr := Eval vm_compute in hd (EConst 0) (o_L (rx_problem drain_rx)).
Lemma drain_running : forall q c el tau, q_p q = [1%Q] -> (el < 2)%nat -> q_theta q el = [0%Q; 0%Q] ->
    (0 <= eval (fun _ x => x) (user_point (rx_problem drain_rx) 2 q c el tau) drain_l')%Q.
Proof.
  intros q c el tau Hp Hel Ht. set (env := user_point _ _ _ _ _ _).
  assert (E1 : env 101 = 1%Q) by (subst env; unfold user_point; rewrite Hp, Ht; reflexivity).
  assert (E2 : env 102 = 0%Q) by (subst env; unfold user_point; rewrite Hp, Ht; reflexivity).
  assert (E3 : env 103 = 0%Q) by (subst env; unfold user_point; rewrite Hp, Ht; reflexivity).
  unfold drain_l'. cbn [eval binop_eval]. rewrite E1, E2, E3. generalize (env 30) (env 20) (env 10) (env 2). clear. intros u y x t.
  match goal with |- (0 <= ?a)%Q => assert (E : (a == u * u + (1 # 2) * ((y - x) * (y - x)))%Q) by (field; discriminate) end.
  rewrite E. clear E. assert (S : forall z : Q, (0 <= z * z)%Q) by (intros z; nra). pose proof (S u). pose proof (S (y - x)%Q). lra.
Qed.
Lemma drain_cost_nonneg : forall q c, q_p q = [1%Q] -> (forall el, (el < 2)%nat -> q_theta q el = [0%Q; 0%Q]) ->
    (0 <= user_cost (fun _ x => x) (rx_problem drain_rx) 2 q c (EConst 0) drain_l' (EConst 0) (radau 2) [3 # 4; 1 # 4])%Q.
Proof.
  intros q c Hp Ht. unfold user_cost.
  match goal with |- (0 <= _ + ?z)%Q => assert (A : (0 <= z)%Q) end.
  { apply qsum_nonneg. intros x Hx. apply in_map_iff in Hx. destruct Hx as [el [<- Hel]]. apply in_seq in Hel.
    apply Qmult_le_0_compat; [vm_compute; discriminate|]. apply qsum_nonneg. intros x Hx. apply in_map_iff in Hx.
    destruct Hx as [[t b] [<- Hb]]. cbn [fst snd]. apply Qmult_le_0_compat.
    - cbn in Hb. destruct Hb as [E|[E|[]]]; injection E as <- <-; discriminate.
    - apply drain_running; [exact Hp|lia|apply Ht; lia]. }
  match goal with |- (0 <= ?y + _)%Q => assert (B : (y == 0)%Q) by (cbn; ring) end.
  rewrite B. lra.
Qed.
Lemma drain_costs_nothing : (user_cost (fun _ x => x) (rx_problem drain_rx) 2 drain_q' drain_c' (EConst 0) drain_l' (EConst 0) (radau 2) [3 # 4; 1 # 4] == 0)%Q.
Proof. vm_compute. reflexivity. Qed.

Lemma same_values : forall (l : list sym) (env env' : sym -> Q) (a : list sym), map env' l = map env l -> incl a l -> map env' a = map env a.
Proof.
  intros l env env' a H I. apply map_ext_in. intros v Hv. specialize (I v Hv). apply In_nth_error in I. destruct I as [i Ei].
  pose proof (f_equal (fun l => nth_error l i) H) as Q1. cbn beta in Q1. rewrite !nth_error_map, Ei in Q1. cbn in Q1. congruence.
Qed.
Lemma chosen_given : forall names given decided values values', chosen names [] given decided values ->
    (exists decided', chosen names [] given decided' values') -> values = values'.
Proof.
  intros names given decided values values' [L H] [d' [L' H']]. apply nth_ext with (d := 0%Q) (d' := 0%Q); [congruence|].
  intros i Hi. destruct (nth_error names i) as [n|] eqn:E; [|apply nth_error_None in E; lia].
  destruct (H i n E) as [A _]. destruct (H' i n E) as [A' _]. specialize (A (fun f => f)). specialize (A' (fun f => f)).
  rewrite <- A' in A. destruct (nth_error values i) as [x|] eqn:Ex; [|apply nth_error_None in Ex; lia].
  symmetry in A. rewrite (nth_error_nth _ _ _ Ex), (nth_error_nth _ _ _ A). reflexivity.
Qed.

Lemma w_drain_solved : exists o rx k nl s r e env q' c' q c,
    drain_problem [] = Ok o /\ drain_relaxed [] whole = Ok rx /\ drain_method [] whole 2 = Ok k /\
    relaxation same_expr radau drain_options whole o 100 rx /\
    direct_setting radau (fun _ e => e) k 1000 nl s r (rx_problem rx) 60 61 200 /\
    o_L o = [drain_cost] /\ o_V o = [EConst 0] /\ o_S o = [EConst 0] /\ o_positive o = false /\
    k_degree_control k = k_degree k /\ exact_rule (radau (k_degree k)) [3 # 4; 1 # 4]%Q /\ nf nl = [e] /\
    describes k (radau (k_degree k)) env s r q' /\ followed (rx_problem rx) (k_elements k) (radau (k_degree_control k)) q' c' /\
    feasible (fun _ x => x) env nl /\
    (forall env', map env' (all_mx s) = map env (all_mx s) -> feasible (fun _ x => x) env' nl ->
       (eval (fun _ x => x) env e <= eval (fun _ x => x) env' e)%Q) /\
    restored_equations (fun _ x => x) rx (k_elements k) q' c' (radau (k_degree k)) /\
    same_trajectory o (freed o whole) (k_elements k) q c q' c' /\ q_p q' = [1%Q] /\
    (poly (q_x q 1 0) 1 == (4 # 11) * (4 # 11))%Q.
Proof.
  assert (HF : respects (fun _ x => x)) by (intros f x y E; exact E).
  destruct (w_C67_objective _ radau (fun _ e => e) drain_k2 1000 _ _ _ (rx_problem drain_rx) 60 61 200 drain_l' (EConst 0) (EConst 0) _ HF drain_setting2
    eq_refl eq_refl eq_refl drain_rule) as [e [Ee He]].
  destruct (w_C67_every_trajectory _ radau (fun _ e => e) drain_k2 1000 _ _ _ (rx_problem drain_rx) 60 61 200 drain_l' (EConst 0) (EConst 0) _ HF drain_setting2
    eq_refl eq_refl eq_refl drain_rule) as [e' [Ee' He']].
  assert (e' = e) by congruence. subst e'.
  destruct (He' _ _ drain_sized drain_followed' drain_collocated') as [env [g [D [Hfe Hcost]]]].
  change (length (m_x (o_model (rx_problem drain_rx)))) with 1 in D.
  exists drain_o, drain_rx, drain_k2, (fst (fst drain_nlp2)), (snd (fst drain_nlp2)), (snd drain_nlp2), e, env,
    (with_cost drain_q' 1 g), drain_c', (drain_q 2), drain_c.
  assert (Z : (eval (fun _ x => x) env e == 0)%Q).
  { rewrite Hcost. change (k_elements drain_k2) with 2. change (radau (k_degree drain_k2)) with (radau 2). rewrite drain_costs_nothing. cbn. ring. }
  split; [exact drain_problem_is|]. split; [exact drain_relaxed_is|]. split; [exact drain_method2_is|]. split; [exact drain_relaxation|].
  split; [exact drain_setting2|]. split; [reflexivity|]. split; [reflexivity|]. split; [reflexivity|]. split; [reflexivity|].
  split; [reflexivity|]. split; [exact drain_rule|]. split; [exact Ee|]. split; [exact D|]. split; [exact drain_followed'|].
  assert (B : bounded drain_k2 env (snd drain_nlp2)).
  { apply (w_C67_bounds _ radau (fun _ e => e) drain_k2 1000 _ _ _ (rx_problem drain_rx) 60 61 200 HF drain_setting2 eq_refl env _ drain_c' D drain_followed').
    apply within_with_cost. exact drain_within'. }
  split; [apply Hfe, B|].
  split; [|split; [exact drain_restored|split; [exact (drain_same g)|split; [reflexivity|vm_compute; reflexivity]]]].
  intros env' Hsame Hf. rewrite Z. pose proof drain_setting2 as [A1 A2 A3 A4 A5 A6 A7 A8].
  destruct (trajectory_exists radau (fun _ e => e) drain_k2 1000 _ _ _ env' A1 A2 A7) as [q2 D2].
  pose proof (describes_fits (fun _ x => x) radau (fun _ e => e) drain_k2 1000 _ _ _ (rx_problem drain_rx) HF A1 A2 A3 A7 env' q2 D2) as Fit.
  destruct (ColTopProofs.finite_choice (nat -> list Q) (fun _ => []) (fun el c => through (radau 2) 2 (q_u q2 el) c) 2) as [c2 Hc2].
  { intros el Hel. apply controls_exist; [exact radau_distinct|].
    rewrite (fi_u _ _ _ Fit el Hel). reflexivity. }
  rewrite (He env' q2 c2 D2 Hc2 Hf).
  assert (P1 : q_p q2 = [1%Q]).
  { change [1%Q] with (q_p (with_cost drain_q' 1 g)). pose proof (de_p _ _ _ _ _ _ D2) as C2. pose proof (de_p _ _ _ _ _ _ D) as C1.
    rewrite (same_values _ env env' (ps_p (snd (fst drain_nlp2))) Hsame) in C2 by (unfold all_mx; intros v Hv; rewrite !in_app_iff; tauto).
    apply (chosen_given _ _ _ _ _ C2). eexists. exact C1. }
  assert (P2 : forall el, (el < 2)%nat -> q_theta q2 el = [0%Q; 0%Q]).
  { intros el Hel. change [0%Q; 0%Q] with (q_theta (with_cost drain_q' 1 g) el).
    destruct (theta_given (fun _ x => x) radau (fun _ e => e) drain_k2 1000 _ _ _ (rx_problem drain_rx) HF A1 A2 A3 A7 el Hel) as [gv [d [Eg Ed]]].
    pose proof (de_theta _ _ _ _ _ _ D2 el gv d Eg Ed) as C2. pose proof (de_theta _ _ _ _ _ _ D el gv d Eg Ed) as C1.
    rewrite (same_values _ env env' gv Hsame) in C2.
    - apply (chosen_given _ _ _ _ _ C2). eexists. exact C1.
    - unfold all_mx. intros v Hv. rewrite !in_app_iff. right. left. apply in_concat. exists gv. split; [exact (nth_error_In _ _ Eg)|exact Hv]. }
  pose proof (drain_cost_nonneg q2 c2 P1 P2) as P.
  assert (X : nth 1 (q_x0 q2) 0%Q = 0%Q).
  { change 0%Q with (nth 1 (q_x0 (with_cost drain_q' 1 g)) 0%Q) at 2. rewrite (de_x0 _ _ _ _ _ _ D2), (de_x0 _ _ _ _ _ _ D).
    rewrite (same_values _ env env' (ps_x0 (snd (fst drain_nlp2))) Hsame) by (unfold all_mx; intros v Hv; rewrite !in_app_iff; tauto). reflexivity. }
  change (length (m_x (o_model (rx_problem drain_rx)))) with 1. rewrite X.
  change (k_elements drain_k2) with 2. change (radau (k_degree drain_k2)) with (radau 2). lra.
Qed.

(** ** Piecewise constant controls *)

Lemma constant_poly : forall l t, length l <= 1 -> (poly l t == nth 0 l 0)%Q.
Proof. intros [|a [|b l]] t H; cbn in *; try lia; ring. Qed.
Lemma quadratic : forall l, length l <= 3 -> exists a b d,
    (forall t, poly l t == a + b * t + d * (t * t))%Q /\ forall t, (poly (derivative l) t == b + 2 * d * t)%Q.
Proof.
  intros [|a [|b [|d [|e l]]]] H; try (cbn in H; lia).
  - exists 0%Q, 0%Q, 0%Q. split; intros t; cbn; ring.
  - exists a, 0%Q, 0%Q. split; intros t; cbn; ring.
  - exists a, b, 0%Q. split; intros t; cbn; change (inject_Z 1) with 1%Q; ring.
  - exists a, b, d. split; intros t; cbn; change (inject_Z 1) with 1%Q; change (inject_Z 2) with 2%Q; ring.
Qed.
Lemma drain_step : (user_step (rx_problem drain_rx) 2 == 1)%Q.
Proof. vm_compute. reflexivity. Qed.

Lemma drain_held : forall q' c', fits drain_k1 (radau 2) q' -> followed (rx_problem drain_rx) 2 (radau 1) q' c' ->
    user_collocated (fun _ x => x) (rx_problem drain_rx) 2 q' c' (radau 2) ->
    restored_equations (fun _ x => x) drain_rx 2 q' c' (radau 2) -> nth 0 (q_x0 q') 0%Q = 1%Q ->
    forall el t, el < 2 -> (poly (c' el 0%nat) t == 1)%Q.
Proof.
  intros q' c' Hfit Hf [U1 U2 U3 U4 U5 U6 U7 U8 U9] Hr Hx0.
  destruct (q_x0 q') as [|x0 xs] eqn:Ex0; [cbn in Hx0; discriminate|]. cbn in Hx0. subst x0.
  assert (Dyn : forall el, el < 2 -> exists a b d, (forall t, poly (q_x q' el 0) t == a + b * t + d * (t * t))%Q /\
     (b == nth 0 (c' el 0%nat) 0 - nth 0 (c' el 1%nat) 0)%Q /\ (d == 0)%Q /\ (b == 0)%Q /\ (a == nth 0 (c' el 1%nat) 0)%Q).
  { intros el Hel. assert (L : length (q_x q' el 0) <= 3) by (apply (fi_x _ _ _ Hfit el 0); cbn; lia).
    destruct (quadratic _ L) as [a [b [d [P DP]]]]. exists a, b, d. split; [exact P|].
    assert (L0 : length (c' el 0) <= 1) by (apply (Hf el Hel 0); cbn; lia).
    assert (L1 : length (c' el 1) <= 1) by (apply (Hf el Hel 1); cbn; lia).
    pose proof (U3 el (1 # 3)%Q 0 10 _ Hel (or_introl eq_refl) eq_refl) as A1.
    pose proof (U3 el 1%Q 0 10 _ Hel (or_intror (or_introl eq_refl)) eq_refl) as A2.
    pose proof (Hr el (1 # 3)%Q Hel (or_introl eq_refl) _ (or_introl eq_refl)) as B1.
    pose proof (Hr el 1%Q Hel (or_intror (or_introl eq_refl)) _ (or_introl eq_refl)) as B2.
    cbn [eval binop_eval] in A1, A2, B1, B2.
    assert (E30 : forall t, user_point (rx_problem drain_rx) 2 q' c' el t 30 = poly (c' el 0) t) by reflexivity.
    assert (E20 : forall t, user_point (rx_problem drain_rx) 2 q' c' el t 20 = poly (c' el 1) t) by reflexivity.
    assert (E10 : forall t, user_point (rx_problem drain_rx) 2 q' c' el t 10 = poly (q_x q' el 0) t) by reflexivity.
    rewrite E30, E20, drain_step in A1, A2. rewrite E20, E10 in B1, B2.
    rewrite DP in A1, A2. rewrite P in B1, B2. rewrite !(constant_poly (c' el 0)) in A1, A2 by exact L0.
    rewrite !(constant_poly (c' el 1)) in A1, A2, B1, B2 by exact L1.
    generalize dependent (nth 0 (c' el 0) 0%Q). generalize dependent (nth 0 (c' el 1) 0%Q). clear. intros y B1 B2 u A1 A2.
    repeat split; lra. }
  assert (Start : (poly (q_x q' 0 0) 0 == 1)%Q).
  { pose proof (U1 _ (or_introl eq_refl)) as I. cbn [eval binop_eval] in I.
    assert (E12 : user_point (rx_problem drain_rx) 2 q' c' 0 0 12 = 1%Q).
    { unfold user_point. rewrite Ex0. pose proof (DirSpec.fi_p _ _ _ Hfit) as Lp. pose proof (DirSpec.fi_theta _ _ _ Hfit 0 ltac:(cbn; lia)) as Lt.
      destruct (q_p q') as [|p1 [|p2 ps]]; try (cbn in Lp; discriminate). destruct (q_theta q' 0) as [|h1 [|h2 [|h3 hs]]]; try (cbn in Lt; discriminate).
      reflexivity. }
    assert (E10 : user_point (rx_problem drain_rx) 2 q' c' 0 0 10 = poly (q_x q' 0 0) 0) by reflexivity.
    rewrite E12, E10 in I. lra. }
  assert (Next : (poly (q_x q' 1 0) 0 == poly (q_x q' 0 0) 1)%Q) by (symmetry; apply U2; cbn; lia).
  destruct (Dyn 0 ltac:(lia)) as [a0 [b0 [d0 [P0 [R0 [S0 [T0 V0]]]]]]]. destruct (Dyn 1 ltac:(lia)) as [a1 [b1 [d1 [P1 [R1 [S1 [T1 V1]]]]]]].
  rewrite P0 in Start. rewrite P0, P1 in Next.
  intros el t Hel. assert (L0 : length (c' el 0) <= 1) by (apply (Hf el Hel 0); cbn; lia). rewrite (constant_poly _ t L0).
  destruct (two_elements el Hel) as [E | E]; subst el.
  - generalize dependent (nth 0 (c' 0 0) 0%Q). generalize dependent (nth 0 (c' 0 1) 0%Q). clear - Start S0 T0. intros; lra.
  - generalize dependent (nth 0 (c' 1 0) 0%Q). generalize dependent (nth 0 (c' 1 1) 0%Q). clear - Start Next S0 T0 S1 T1. intros; lra.
Qed.

Lemma drain_shaped : forall n, shaped drain_o (radau n) (radau 2) (drain_q (length (radau n))).
Proof.
  intros n. constructor; intros; try reflexivity.
  - destruct i; cbn; lia.
  - cbn [drain_q q_u]. rewrite repeat_length. cbn. lia.
Qed.
Lemma drain_followed : forall n, followed drain_o 2 (radau n) (drain_q (length (radau n))) drain_c.
Proof.
  intros n el Hel i Hi. split; [cbn; lia|]. intros j tau v Hj Hv. cbn in Hi. assert (i = 0) by lia. subst i.
  apply nth_error_In in Hv. apply repeat_spec in Hv. subst v. reflexivity.
Qed.
Lemma unit_cost : forall q c, (forall el t, el < 2 -> (poly (c el 0%nat) t == 1)%Q) ->
    (user_cost (fun _ x => x) drain_o 2 q c (EConst 0) drain_cost (EConst 0) (radau 2) [3 # 4; 1 # 4] == 2)%Q.
Proof.
  intros q c H. unfold user_cost.
  assert (E : forall el t, el < 2 -> (eval (fun _ x => x) (user_point drain_o 2 q c el t) drain_cost == 1)%Q).
  { intros el t Hel. cbn [drain_cost eval binop_eval].
    assert (E30 : user_point drain_o 2 q c el t 30 = poly (c el 0) t) by reflexivity. rewrite E30, (H el t Hel). reflexivity. }
  assert (St : (user_step drain_o 2 == 1)%Q) by (vm_compute; reflexivity).
  cbn [seq map radau combine qsum fst snd eval]. rewrite !E by lia. rewrite St. ring.
Qed.

Lemma w_C81_degree : exists o rx k nl s r,
    drain_problem [] = Ok o /\ drain_relaxed [] whole = Ok rx /\ drain_method [] whole 1 = Ok k /\
    relaxation same_expr radau drain_options whole o 100 rx /\
    direct_setting radau (fun _ e => e) k 1000 nl s r (rx_problem rx) 60 61 200 /\
    o_L o = [drain_cost] /\ o_V o = [EConst 0] /\ o_S o = [EConst 0] /\ exact_rule (radau (k_degree k)) [3 # 4; 1 # 4]%Q /\
    k_degree_control k = 1 /\
    let F := fun (_ : nat) (x : Q) => x in let N := k_elements k in
    let pts := radau (k_degree k) in let upts := radau (k_degree_control k) in
    let cost := fun q c => user_cost F o N q c (EConst 0) drain_cost (EConst 0) pts [3 # 4; 1 # 4]%Q in
    (exists q c, shaped o upts pts q /\ followed o N upts q c /\ user_collocated F o N q c pts /\ user_within o N q c upts pts /\
       nth 0 (q_x0 q) 0%Q = 1%Q /\ (cost q c == 0)%Q) /\
    forall q' c' q c, fits k pts q' -> followed (rx_problem rx) N upts q' c' -> nth 0 (q_x0 q') 0%Q = 1%Q ->
      user_collocated F (rx_problem rx) N q' c' pts -> restored_equations F rx N q' c' pts ->
      same_trajectory o (freed o whole) N q c q' c' -> (cost q c == 2)%Q.
Proof.
  exists drain_o, drain_rx, drain_k1, (fst (fst drain_nlp1)), (snd (fst drain_nlp1)), (snd drain_nlp1).
  split; [exact drain_problem_is|]. split; [exact drain_relaxed_is|]. split; [exact drain_method1_is|]. split; [exact drain_relaxation|].
  split; [exact drain_setting1|]. split; [reflexivity|]. split; [reflexivity|]. split; [reflexivity|]. split; [exact drain_rule|].
  split; [reflexivity|]. cbv zeta. change (k_elements drain_k1) with 2. change (k_degree drain_k1) with 2. change (k_degree_control drain_k1) with 1.
  split.
  - exists (drain_q 1), drain_c. split; [exact (drain_shaped 1)|]. split; [exact (drain_followed 1)|]. split; [exact (drain_collocated 1)|].
    split; [apply drain_within; intros tau [<-|[]]; lra|]. split; [reflexivity|]. vm_compute. reflexivity.
  - intros q' c' q c Hfit Hf H0 Hu Hr HS. apply unit_cost. intros el t Hel.
    rewrite <- (st_u _ _ _ _ _ _ _ HS el 0 Hel ltac:(cbn; lia)). exact (drain_held q' c' Hfit Hf Hu Hr H0 el t Hel).
Qed.

(** ** Equalities at the end of the elements *)

Definition target_o : ocp := Eval vm_compute in
  match drain_problem drain_target as x return (match x with Ok _ => ocp | Raise _ => unit end) with Ok o => o | Raise _ => tt end.
Definition target_rx : relaxing := Eval vm_compute in
  match drain_relaxed drain_target target_only as x return (match x with Ok _ => relaxing | Raise _ => unit end) with Ok o => o | Raise _ => tt end.
(** Drained to the target and held there. *)
Definition target_q : trajectory :=
  mkTrajectory (fun el i => match el, i with 0, 0 => drain_x 0 | _, 0 => [4 # 11]%Q | _, _ => [] end)
    (fun el _ => match el with 0 => drain_y 0 | _ => [4 # 11]%Q end) (fun el => match el with 0 => [0%Q] | _ => [4 # 11]%Q end)
    [] (fun _ => []) [] [1%Q; 0%Q] [].
Definition target_c (el i : nat) : list Q := match el with 0 => [] | _ => [4 # 11]%Q end.

Lemma target_collocated : user_collocated (fun _ x => x) target_o 2 target_q target_c (radau 2).
Proof.
  constructor.
  - intros e [<-|[]]. vm_compute. reflexivity.
  - intros el i Hel Hi. cbn in Hi. assert (el = 0) by lia. assert (i = 0) by lia. subst. vm_compute. reflexivity.
  - intros el tau i v e Hel Ht He. destruct i as [|i]; [|destruct i; discriminate]. cbn in He. injection He as <- <-.
    destruct (two_elements _ Hel) as [-> | ->]; destruct Ht as [<-|[<-|[]]]; vm_compute; reflexivity.
  - intros el tau Hel Ht N e [<-|[]]. destruct (two_elements _ Hel) as [-> | ->]; destruct Ht as [<-|[<-|[]]]; vm_compute; reflexivity.
  - intros el i lo hi Hel Hl Hh. destruct i as [|i]; [|destruct i; discriminate]; cbn in Hl, Hh; injection Hl as <-; injection Hh as <-; split; exact I.
  - intros el j g w tau Hel Hg. destruct j; discriminate.
  - intros el j g w tau Hel Hg Hw Ht. destruct j as [|j]; [|destruct j; discriminate]. cbn in Hg, Hw. injection Hg as <-. injection Hw as <-.
    destruct Ht as [<-|[]]. destruct (two_elements _ Hel) as [-> | ->]; vm_compute; reflexivity.
  - intros e [].
  - intros e [].
Qed.

Lemma w_C81_end : exists o rx,
    drain_problem drain_target = Ok o /\ drain_relaxed drain_target target_only = Ok rx /\ o_when_eq o = ["end"%string] /\
    let F := fun (_ : nat) (x : Q) => x in
    (exists q c, shaped o (radau 1) (radau 2) q /\ followed o 2 (radau 1) q c /\ user_collocated F o 2 q c (radau 2) /\ nth 0 (q_x0 q) 0%Q = 1%Q) /\
    forall q' c', shaped (rx_problem rx) (radau 1) (radau 2) q' -> followed (rx_problem rx) 2 (radau 1) q' c' -> nth 0 (q_x0 q') 0%Q = 1%Q ->
      user_collocated F (rx_problem rx) 2 q' c' (radau 2) -> ~ restored_equations F rx 2 q' c' (radau 2).
Proof.
  exists target_o, target_rx. split; [vm_compute; reflexivity|]. split; [vm_compute; reflexivity|]. split; [reflexivity|]. cbv zeta. split.
  - exists target_q, target_c. split; [|split; [|split; [exact target_collocated|reflexivity]]].
    + constructor; intros; try reflexivity.
      * destruct el, i; cbn; lia.
      * destruct el; cbn; lia.
      * destruct el; reflexivity.
    + intros el Hel i Hi. cbn in Hi. assert (i = 0) by lia. subst i. split; [destruct el; cbn; lia|].
      intros [|j] tau v Hj Hv; [|destruct j; discriminate]. cbn in Hj. injection Hj as <-. destruct el; cbn in Hv; injection Hv as <-; vm_compute; reflexivity.
  - intros q' c' Hsh Hf Hx0 [U1 U2 U3 U4 U5 U6 U7 U8 U9] Hr.
    destruct (q_x0 q') as [|x0 xs] eqn:Ex0; [cbn in Hx0; discriminate|]. cbn in Hx0. subst x0.
    assert (L : length (q_x q' 0 0) <= 3) by exact (sh_x _ _ _ _ Hsh 0 0).
    destruct (quadratic _ L) as [a [b [d [P DP]]]].
    assert (L0 : length (c' 0 0) <= 1) by (apply (Hf 0 ltac:(lia) 0); cbn; lia).
    pose proof (U3 0 (1 # 3)%Q 0 10 _ ltac:(lia) (or_introl eq_refl) eq_refl) as A1.
    pose proof (U3 0 1%Q 0 10 _ ltac:(lia) (or_intror (or_introl eq_refl)) eq_refl) as A2.
    pose proof (U4 0 (1 # 3)%Q ltac:(lia) (or_introl eq_refl) ltac:(discriminate) _ (or_introl eq_refl)) as Y1.
    pose proof (U4 0 1%Q ltac:(lia) (or_intror (or_introl eq_refl)) ltac:(discriminate) _ (or_introl eq_refl)) as Y2.
    pose proof (Hr 0 (1 # 3)%Q ltac:(lia) (or_introl eq_refl) _ (or_introl eq_refl)) as B1.
    pose proof (Hr 0 1%Q ltac:(lia) (or_intror (or_introl eq_refl)) _ (or_introl eq_refl)) as B2.
    pose proof (U1 _ (or_introl eq_refl)) as I0. cbn [eval binop_eval] in A1, A2, B1, B2, Y1, Y2, I0.
    assert (St : (user_step (rx_problem target_rx) 2 == 1)%Q) by (vm_compute; reflexivity).
    assert (E30 : forall t, user_point (rx_problem target_rx) 2 q' c' 0 t 30 = poly (c' 0 0) t) by reflexivity.
    assert (E10 : forall t, user_point (rx_problem target_rx) 2 q' c' 0 t 10 = poly (q_x q' 0 0) t) by reflexivity.
    assert (E12 : user_point (rx_problem target_rx) 2 q' c' 0 0 12 = 1%Q).
    { unfold user_point. rewrite Ex0. pose proof (sh_p _ _ _ _ Hsh) as Lp. pose proof (sh_theta _ _ _ _ Hsh 0) as Lt.
      destruct (q_p q') as [|p1 [|p2 ps]]; try (cbn in Lp; discriminate). destruct (q_theta q' 0) as [|h1 [|h2 [|h3 hs]]]; try (cbn in Lt; discriminate).
      reflexivity. }
    rewrite E12, E10 in I0. rewrite E30, St in A1, A2. rewrite E10 in Y1, Y2, B1, B2.
    rewrite DP in A1, A2. rewrite P in Y1, Y2, B1, B2, I0. rewrite !(constant_poly (c' 0 0)) in A1, A2 by exact L0.
    generalize dependent (nth 0 (c' 0 0) 0%Q). intros u A1 A2.
    generalize dependent (user_point (rx_problem target_rx) 2 q' c' 0 (1 # 3) 20). intros y1 A1 Y1.
    generalize dependent (user_point (rx_problem target_rx) 2 q' c' 0 1 20). intros y2 A2 Y2.
    clear - A1 A2 Y1 Y2 B1 B2 I0. lra.
Qed.

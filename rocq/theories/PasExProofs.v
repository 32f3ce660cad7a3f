(** The example of successive passes: the tank of C81. *)
From Coq Require Import String Qabs Lqa Setoid.
From Verif Require Import Base BaseProofs UtilModel ExprModel ExprProofs NlpModel NlpSpec SysModel SysSpec SysProofs
  OcpModel OcpSpec SimModel LagModel LagSpec LagProofs DiscModel DiscSpec DiscProofs ColSpec ColEvalProofs ColPolyProofs
  ColElementProofs ColMainProofs ColTopProofs DirSpec DirProofs DirColProofs DirTopProofs DirExProofs AugModel AugSpec AlsSpec AlsTopProofs AlsExProofs
  MulSpec MulProofs MulExProofs PasSpec PasProofs.
Local Open Scope list_scope.
Local Open Scope nat_scope.

Section Tank.
  (** The weight, and minus the multipliers over the weight: the outflow is the level plus [a]. *)
  Variables (m a : Q).
  Hypothesis Hm : (0 < m)%Q.
  Hypothesis Ha : (0 <= a)%Q.
  Definition full_x (el : nat) : list Q :=
    [((1 + a) * drain_scale el - a)%Q; ((1 + a) * drain_scale el * (-10 # 11))%Q; ((1 + a) * drain_scale el * (3 # 11))%Q].
  Definition full_y (el : nat) : list Q := [((1 + a) * drain_scale el * (10 # 11))%Q; ((1 + a) * drain_scale el * (-6 # 11))%Q].
  Definition full_q : trajectory :=
    mkTrajectory (fun el i => match i with 0 => full_x el | _ => [] end) (fun el _ => full_y el) (fun _ => [0%Q; 0%Q]) [] (fun _ => []) [] [1%Q; 0%Q] [].
  Definition full_q' : trajectory :=
    mkTrajectory (fun el i => match i with 0 => full_x el | _ => [] end) (fun _ _ => [])
      (fun el => [0%Q; ((1 + a) * drain_scale el * (8 # 11))%Q; 0%Q; ((1 + a) * drain_scale el * (4 # 11))%Q])
      [m] (fun _ => [(- (m * a))%Q; (- (m * a))%Q]) [] [1%Q; 0%Q] [].
  Definition full_c' (el i : nat) : list Q := match i with 0 => [] | _ => full_y el end.

  Lemma full_sized : sized drain_k2 (radau 2) full_q'.
  Proof. constructor; intros; cbn; try reflexivity; try lia. destruct i; cbn; lia. Qed.
  Lemma full_followed' : followed (rx_problem drain_rx) 2 (radau 2) full_q' full_c'.
  Proof.
    intros el Hel i Hi. cbn in Hi. split; [destruct i; cbn; lia|].
    intros j tau v Ht Hv. assert (Ei : i = 0 \/ i = 1) by lia. destruct j as [|[|j]]; [| |destruct j; discriminate]; cbn in Ht; injection Ht as <-;
      destruct Ei as [-> | ->]; cbn in Hv; injection Hv as <-; unfold full_c', full_y; cbn [poly]; try reflexivity; ring.
  Qed.
  Lemma full_followed : followed drain_o 2 (radau 2) full_q drain_c.
  Proof.
    intros el Hel i Hi. cbn in Hi. split; [cbn; lia|]. assert (i = 0) by lia. subst i.
    intros j tau v Ht Hv. destruct j as [|[|j]]; [| |destruct j; discriminate]; cbn in Hv; injection Hv as <-; reflexivity.
  Qed.
  Lemma full_shaped : shaped drain_o (radau 2) (radau 2) full_q.
  Proof. constructor; intros; cbn; try reflexivity; try lia. destruct i; cbn; lia. Qed.
  Lemma full_same : forall g, same_trajectory drain_o (freed drain_o whole) 2 full_q drain_c (with_cost full_q' 1 g) full_c'.
  Proof.
    intros g. constructor.
    - intros el i Hel Hi. cbn in Hi. assert (i = 0) by lia. subst i. reflexivity.
    - intros el i j Hel Hj. destruct j; discriminate.
    - intros el i j Hel Hj. destruct j as [|j]; [injection Hj as <-; reflexivity|destruct j; discriminate].
    - intros el i Hel Hi. cbn in Hi. assert (i = 0) by lia. subst i. reflexivity.
    - intros el i Hel Hi. cbn in Hi. assert (i = 0) by lia. subst i. reflexivity.
    - reflexivity.
    - reflexivity.
    - repeat split; reflexivity.
  Qed.
  Lemma full_collocated : user_collocated (fun _ x => x) (rx_problem drain_rx) 2 full_q' full_c' (radau 2).
  Proof.
    constructor.
    - intros e [<-|[]]. cbn -[Qplus Qmult Qminus]. ring.
    - intros el i Hel Hi. cbn in Hi. assert (el = 0) by lia. assert (i = 0) by lia. subst. cbn -[Qplus Qmult Qminus]. ring.
    - intros el tau i v e Hel Ht He. destruct i as [|i]; [|destruct i; discriminate]. cbn in He. injection He as <- <-.
      rewrite drain_step. cbn [eval binop_eval]. unfold user_point.
      destruct (two_elements _ Hel) as [-> | ->]; destruct Ht as [<-|[<-|[]]]; cbn -[Qplus Qmult Qminus]; change (inject_Z 1) with 1%Q; change (inject_Z 2) with 2%Q; ring.
    - intros el tau Hel Ht N. exfalso. apply N. reflexivity.
    - intros el i lo hi Hel Hl Hh. destruct i as [|[|i]]; [| |destruct i; discriminate]; cbn in Hl, Hh; injection Hl as <-; injection Hh as <-; split; exact I.
    - intros el j g w tau Hel Hg. destruct j; discriminate.
    - intros el j g w tau Hel Hg. destruct j; discriminate.
    - intros e [].
    - intros e [].
  Qed.
  Lemma full_within : user_within (rx_problem drain_rx) 2 full_q' full_c' (radau 2) (radau 2).
  Proof.
    constructor.
    - intros el tau i lo hi Hel Ht Hi Hlo Hhi. cbn in Hi. assert (i = 0) by lia. subst i. cbn in Hlo, Hhi. injection Hlo as <-. injection Hhi as <-. split; exact I.
    - intros el tau i lo hi Hel Ht Hi. cbn in Hi. lia.
    - intros el tau i lo hi Hel Ht Hi Hlo Hhi. cbn in Hi. assert (Ei : i = 0 \/ i = 1) by lia.
      destruct (two_elements _ Hel) as [-> | ->]; destruct Ht as [<-|[<-|[]]]; destruct Ei as [-> | ->]; cbn in Hlo, Hhi; injection Hlo as <-; injection Hhi as <-;
        cbn -[Qplus Qmult Qminus Qle]; split; try exact I; lra.
    - intros j i v b lo hi Hj. destruct j; discriminate.
    - intros el j i v b lo hi Hel Hj. destruct j; discriminate.
  Qed.

  (** ** No trajectory costs less *)
  Lemma full_running : forall q c el tau, q_p q = [m] -> (el < 2)%nat -> q_theta q el = [(- (m * a))%Q; (- (m * a))%Q] ->
      (- ((1 # 2) * (m * a * a)) <= eval (fun _ x => x) (user_point (rx_problem drain_rx) 2 q c el tau) drain_l')%Q.
  Proof.
    intros q c el tau Hp Hel Ht. set (env := user_point _ _ _ _ _ _).
    assert (E1 : env 101 = m) by (subst env; unfold user_point; rewrite Hp, Ht; reflexivity).
    assert (E2 : env 102 = (- (m * a))%Q) by (subst env; unfold user_point; rewrite Hp, Ht; reflexivity).
    assert (E3 : env 103 = (- (m * a))%Q) by (subst env; unfold user_point; rewrite Hp, Ht; reflexivity).
    unfold drain_l'. cbn [eval binop_eval]. rewrite E1, E2, E3. generalize (env 30) (env 20) (env 10) (env 2). clear -Hm. intros u y x t.
    match goal with |- (_ <= ?z)%Q => assert (E : (z == u * u + ((1 # 2) * (m * ((y - x - a) * (y - x - a))) - (1 # 2) * (m * a * a)))%Q) by (field; discriminate) end.
    rewrite E. clear E. assert (S : forall z : Q, (0 <= z * z)%Q) by (intros z; nra). pose proof (S u).
    assert (0 <= m * ((y - x - a) * (y - x - a)))%Q by (apply Qmult_le_0_compat; [lra|apply S]). lra.
  Qed.
  Lemma full_least : forall q c, q_p q = [m] -> (forall el, (el < 2)%nat -> q_theta q el = [(- (m * a))%Q; (- (m * a))%Q]) ->
      (- (m * a * a) <= user_cost (fun _ x => x) (rx_problem drain_rx) 2 q c (EConst 0) drain_l' (EConst 0) (radau 2) [3 # 4; 1 # 4])%Q.
  Proof.
    intros q c Hp Ht. unfold user_cost. cbn [map seq qsum combine radau fst snd]. rewrite drain_step.
    pose proof (full_running q c 0 (1 # 3) Hp ltac:(lia) (Ht 0 ltac:(lia))) as A1. pose proof (full_running q c 0 1 Hp ltac:(lia) (Ht 0 ltac:(lia))) as A2.
    pose proof (full_running q c 1 (1 # 3) Hp ltac:(lia) (Ht 1 ltac:(lia))) as A3. pose proof (full_running q c 1 1 Hp ltac:(lia) (Ht 1 ltac:(lia))) as A4.
    cbn [eval]. set (z1 := eval _ _ drain_l') in *. set (z2 := eval _ _ drain_l') in *. set (z3 := eval _ _ drain_l') in *. set (z4 := eval _ _ drain_l') in *.
    lra.
  Qed.
  Lemma full_costs : (user_cost (fun _ x => x) (rx_problem drain_rx) 2 full_q' full_c' (EConst 0) drain_l' (EConst 0) (radau 2) [3 # 4; 1 # 4] == - (m * a * a))%Q.
  Proof.
    unfold user_cost, drain_l'. cbn -[Qplus Qmult Qminus Qdiv Qinv user_step]. rewrite drain_step. field.
  Qed.
End Tank.

Definition tank_nl := fst (fst drain_nlp2).
Definition tank_s := snd (fst drain_nlp2).
Definition tank_r := snd drain_nlp2.

Lemma full_pass : exists e, nf tank_nl = [e] /\ forall m a, (0 < m)%Q -> (0 <= a)%Q ->
    exists env g, pass (fun _ x => x) radau drain_o whole drain_rx drain_k2 tank_nl tank_s tank_r e env
      (with_cost (full_q' m a) 1 g) (full_c' a) (full_q a) drain_c.
Proof.
  assert (HF : respects (fun _ x => x)) by (intros f x y E; exact E).
  destruct (w_C67_objective _ radau (fun _ e => e) drain_k2 1000 _ _ _ (rx_problem drain_rx) 60 61 200 drain_l' (EConst 0) (EConst 0) _ HF drain_setting2
    eq_refl eq_refl eq_refl drain_rule) as [e [Ee He]].
  destruct (w_C67_every_trajectory _ radau (fun _ e => e) drain_k2 1000 _ _ _ (rx_problem drain_rx) 60 61 200 drain_l' (EConst 0) (EConst 0) _ HF drain_setting2
    eq_refl eq_refl eq_refl drain_rule) as [e' [Ee' He']].
  assert (e' = e) by congruence. subst e'. exists e. split; [exact Ee|]. intros m a Hm Ha.
  destruct (He' _ _ (full_sized m a) (full_followed' m a) (full_collocated m a)) as [env [g [D [Hfe Hcost]]]].
  change (length (m_x (o_model (rx_problem drain_rx)))) with 1 in D.
  assert (Z : (eval (fun _ x => x) env e == - (m * a * a))%Q).
  { rewrite Hcost. change (k_elements drain_k2) with 2. change (radau (k_degree drain_k2)) with (radau 2). rewrite full_costs. cbn -[Qplus Qmult Qopp]. ring. }
  exists env, g. constructor.
  - exact D.
  - exact (full_followed' m a).
  - apply Hfe. apply (w_C67_bounds _ radau (fun _ e => e) drain_k2 1000 _ _ _ (rx_problem drain_rx) 60 61 200 HF drain_setting2 eq_refl env _ (full_c' a) D (full_followed' m a)).
    apply within_with_cost. exact (full_within m a Ha).
  - intros env' Hsame Hf. rewrite Z. pose proof drain_setting2 as [A1 A2 A3 A4 A5 A6 A7 A8].
    destruct (trajectory_exists radau (fun _ e => e) drain_k2 1000 _ _ _ env' A1 A2 A7) as [q2 D2].
    pose proof (describes_fits (fun _ x => x) radau (fun _ e => e) drain_k2 1000 _ _ _ (rx_problem drain_rx) HF A1 A2 A3 A7 env' q2 D2) as Fit.
    destruct (ColTopProofs.finite_choice (nat -> list Q) (fun _ => []) (fun el c => through (radau 2) 2 (q_u q2 el) c) 2) as [c2 Hc2].
    { intros el Hel. apply controls_exist; [exact radau_distinct|].
      rewrite (fi_u _ _ _ Fit el Hel). reflexivity. }
    rewrite (He env' q2 c2 D2 Hc2 Hf).
    assert (P1 : q_p q2 = [m]).
    { change [m] with (q_p (with_cost (full_q' m a) 1 g)). pose proof (de_p _ _ _ _ _ _ D2) as C2. pose proof (de_p _ _ _ _ _ _ D) as C1.
      rewrite (same_values _ env env' (ps_p (snd (fst drain_nlp2))) Hsame) in C2 by (unfold all_mx; intros v Hv; rewrite !in_app_iff; tauto).
      apply (chosen_given _ _ _ _ _ C2). eexists. exact C1. }
    assert (P2 : forall el, (el < 2)%nat -> q_theta q2 el = [(- (m * a))%Q; (- (m * a))%Q]).
    { intros el Hel. change [(- (m * a))%Q; (- (m * a))%Q] with (q_theta (with_cost (full_q' m a) 1 g) el).
      destruct (theta_given (fun _ x => x) radau (fun _ e => e) drain_k2 1000 _ _ _ (rx_problem drain_rx) HF A1 A2 A3 A7 el Hel) as [gv [d [Eg Ed]]].
      pose proof (de_theta _ _ _ _ _ _ D2 el gv d Eg Ed) as C2. pose proof (de_theta _ _ _ _ _ _ D el gv d Eg Ed) as C1.
      rewrite (same_values _ env env' gv Hsame) in C2.
      - apply (chosen_given _ _ _ _ _ C2). eexists. exact C1.
      - unfold all_mx. intros v Hv. rewrite !in_app_iff. right. left. apply in_concat. exists gv. split; [exact (nth_error_In _ _ Eg)|exact Hv]. }
    pose proof (full_least m a Hm q2 c2 P1 P2) as P.
    assert (X : nth 1 (q_x0 q2) 0%Q = 0%Q).
    { change 0%Q with (nth 1 (q_x0 (with_cost (full_q' m a) 1 g)) 0%Q) at 2. rewrite (de_x0 _ _ _ _ _ _ D2), (de_x0 _ _ _ _ _ _ D).
      rewrite (same_values _ env env' (ps_x0 (snd (fst drain_nlp2))) Hsame) by (unfold all_mx; intros v Hv; rewrite !in_app_iff; tauto). reflexivity. }
    change (length (m_x (o_model (rx_problem drain_rx)))) with 1. rewrite X.
    change (k_elements drain_k2) with 2. change (radau (k_degree drain_k2)) with (radau 2). lra.
  - exact (full_same m a g).
  - exact (full_shaped a).
  - exact (full_followed a).
Qed.

(** ** The numbers *)

Section Numbers.
  Variables (m a : Q) (g : nat -> list Q).
  Let q := with_cost (full_q' m a) 1 g.
  Lemma full_weights : forall el tau, el < 2 -> weights_at drain_rx 2 q (full_c' a) el tau = [m].
  Proof. intros el tau Hel. reflexivity. Qed.
  Lemma full_equations : forall el tau, el < 2 -> In tau (radau 2) -> Forall2 Qeq (equations_at (fun _ x => x) drain_rx 2 q (full_c' a) el tau) [a].
  Proof.
    intros el tau Hel Ht. constructor; [|constructor]. unfold q. cbn [eval binop_eval]. unfold user_point.
    destruct (two_elements _ Hel) as [-> | ->]; destruct Ht as [<-|[<-|[]]]; cbn -[Qplus Qmult Qminus]; ring.
  Qed.
  Lemma full_multipliers : forall el tau, el < 2 -> In tau (radau 2) -> Forall2 Qeq (multipliers_at (fun _ x => x) drain_rx 2 q (full_c' a) el tau) [(- (m * a))%Q].
  Proof.
    intros el tau Hel Ht. unfold multipliers_at. change (rx_nu_pol drain_rx) with [hd (EConst 0) (rx_nu_pol drain_rx)]. cbn [map].
    constructor; [|constructor]. unfold q. unfold user_point.
    destruct (two_elements _ Hel) as [-> | ->]; destruct Ht as [<-|[<-|[]]]; cbn -[Qplus Qmult Qminus Qopp Qdiv Qinv]; field; discriminate.
  Qed.
  Lemma full_raised : forall el tau, el < 2 -> In tau (radau 2) -> Forall2 Qeq (raised (fun _ x => x) drain_rx 2 q (full_c' a) el tau) [0%Q].
  Proof.
    intros el tau Hel Ht. unfold raised. rewrite (full_weights el tau Hel). pose proof (full_equations el tau Hel Ht) as E.
    pose proof (full_multipliers el tau Hel Ht) as M. revert E M. generalize (equations_at (fun _ x => x) drain_rx 2 q (full_c' a) el tau).
    generalize (multipliers_at (fun _ x => x) drain_rx 2 q (full_c' a) el tau). intros G2 G E M. inversion E as [|x ? ? ? Ex Et E1 E2]; subst. inversion Et; subst.
    inversion M as [|y ? ? ? Ey Et2 E3 E4]; subst. inversion Et2; subst. cbn [combine map fst snd].
    constructor; [|constructor]. rewrite Ey, Ex. ring.
  Qed.
  Lemma full_violation : forall mu, (violation (fun _ x => x) drain_rx 2 (radau 2) [(3 # 4)%Q; (1 # 4)%Q] (fun _ _ => [mu]) q (full_c' a) == 2 * (mu * (a * a)))%Q.
  Proof.
    intros mu.
    assert (E : (violation (fun _ x => x) drain_rx 2 (radau 2) [(3 # 4)%Q; (1 # 4)%Q] (fun _ _ => [mu]) q (full_c' a) ==
       integrated drain_rx 2 (radau 2) [(3 # 4)%Q; (1 # 4)%Q] (fun _ _ => mu * (a * a))%Q)%Q).
    { apply int_ext. intros el tau Hel Ht. pose proof (full_equations el tau Hel Ht) as E. revert E. cbv beta.
      generalize (equations_at (fun _ x => x) drain_rx 2 q (full_c' a) el tau). intros G E. inversion E as [|x ? ? ? Ex Et E1 E2]; subst. inversion Et; subst.
      cbn [map dot]. rewrite Ex. ring. }
    rewrite E. unfold integrated. cbn [radau combine map seq qsum fst snd]. rewrite drain_step. ring.
  Qed.
End Numbers.
Lemma Forall2_Qeq_trans : forall x y z : list Q, Forall2 Qeq x y -> Forall2 Qeq y z -> Forall2 Qeq x z.
Proof.
  intros x y z H. revert z. induction H as [|p q x y E H IH]; intros z Hz; inversion Hz; subst; constructor; [rewrite E; assumption|apply IH; assumption].
Qed.
Lemma Forall2_Qeq_sym : forall x y : list Q, Forall2 Qeq x y -> Forall2 Qeq y x.
Proof. intros x y H. induction H; constructor; [symmetry; assumption|assumption]. Qed.
Lemma one_entry : forall x y : Q, (x == y)%Q -> Forall2 Qeq [x] [y].
Proof. intros x y H. repeat constructor. exact H. Qed.
Lemma full_data : forall m1 a1 g1 m2 a2 g2, same_data drain_o 2 (full_q a1) (full_q a2) /\
    q_x0 (with_cost (full_q' m1 a1) 1 g1) = q_x0 (with_cost (full_q' m2 a2) 1 g2).
Proof.
  intros m1 a1 g1 m2 a2 g2. split; [|reflexivity]. constructor; try reflexivity.
Qed.

Lemma tank_set : exists e, tank_setting drain_o drain_rx drain_k2 tank_nl tank_s tank_r e [(3 # 4)%Q; (1 # 4)%Q] /\
  forall m a, (0 < m)%Q -> (0 <= a)%Q ->
    exists env g, pass (fun _ x => x) radau drain_o whole drain_rx drain_k2 tank_nl tank_s tank_r e env
      (with_cost (full_q' m a) 1 g) (full_c' a) (full_q a) drain_c.
Proof.
  destruct full_pass as [e [Ee H]]. exists e. split; [|exact H]. unfold tank_setting.
  split; [exact drain_problem_is|]. split; [exact drain_relaxed_is|]. split; [exact drain_method2_is|]. split; [exact drain_relaxation|].
  split; [exact drain_setting2|]. do 6 (split; [reflexivity|]). split; [exact drain_rule|]. split; [|exact Ee].
  repeat constructor; discriminate.
Qed.

Lemma w_tank_update : exists o rx k nl s r e env1 q1' c1' q1 c1 env2 q2' c2' q2 c2,
    let b := [(3 # 4)%Q; (1 # 4)%Q] in let N := k_elements k in let pts := radau (k_degree k) in let F := fun (_ : nat) (x : Q) => x in
    tank_setting o rx k nl s r e b /\
    pass F radau o whole rx k nl s r e env1 q1' c1' q1 c1 /\ pass F radau o whole rx k nl s r e env2 q2' c2' q2 c2 /\ same_data o N q1 q2 /\
    everywhere N pts (raised F rx N q1' c1') (multipliers_at F rx N q2' c2') /\ everywhere N pts (weights_at rx N q1' c1') (weights_at rx N q2' c2') /\
    (violation F rx N pts b (weights_at rx N q1' c1') q1' c1' == 2)%Q /\ (violation F rx N pts b (weights_at rx N q1' c1') q2' c2' == 0)%Q.
Proof.
  destruct tank_set as [e [HS H]]. destruct (H 1%Q 1%Q eq_refl ltac:(discriminate)) as [env1 [g1 P1]]. destruct (H 1%Q 0%Q eq_refl ltac:(discriminate)) as [env2 [g2 P2]].
  do 6 eexists. exists e. do 10 eexists. cbv zeta. split; [exact HS|]. split; [exact P1|]. split; [exact P2|].
  split; [exact (proj1 (full_data 1 1 g1 1 0 g2))|]. split; [|split; [|split]].
  - intros el tau Hel Ht. apply (Forall2_Qeq_trans _ [(- (1 * 0))%Q]); [exact (full_multipliers 1 0 g2 el tau Hel Ht)|].
    apply (Forall2_Qeq_trans _ [0%Q]); [apply one_entry; reflexivity|]. apply Forall2_Qeq_sym. exact (full_raised 1 1 g1 el tau Hel Ht).
  - intros el tau Hel Ht. apply one_entry. reflexivity.
  - exact (full_violation 1 1 g1 1).
  - exact (full_violation 1 0 g2 1).
Qed.
Lemma w_tank_weights : exists o rx k nl s r e env1 q1' c1' q1 c1 env2 q2' c2' q2 c2,
    let b := [(3 # 4)%Q; (1 # 4)%Q] in let N := k_elements k in let pts := radau (k_degree k) in let F := fun (_ : nat) (x : Q) => x in
    tank_setting o rx k nl s r e b /\
    pass F radau o whole rx k nl s r e env1 q1' c1' q1 c1 /\ pass F radau o whole rx k nl s r e env2 q2' c2' q2 c2 /\ same_data o N q1 q2 /\
    everywhere N pts (multipliers_at F rx N q1' c1') (multipliers_at F rx N q2' c2') /\
    everywhere N pts (fun el tau => map (Qmult 4) (weights_at rx N q1' c1' el tau)) (weights_at rx N q2' c2') /\
    (violation F rx N pts b (weights_at rx N q1' c1') q1' c1' == 2)%Q /\ (violation F rx N pts b (weights_at rx N q1' c1') q2' c2' == 1 # 8)%Q.
Proof.
  destruct tank_set as [e [HS H]]. destruct (H 1%Q 1%Q eq_refl ltac:(discriminate)) as [env1 [g1 P1]]. destruct (H 4%Q (1 # 4)%Q eq_refl ltac:(discriminate)) as [env2 [g2 P2]].
  do 6 eexists. exists e. do 10 eexists. cbv zeta. split; [exact HS|]. split; [exact P1|]. split; [exact P2|].
  split; [exact (proj1 (full_data 1 1 g1 4 (1 # 4) g2))|]. split; [|split; [|split]].
  - intros el tau Hel Ht. apply (Forall2_Qeq_trans _ [(- (4 * (1 # 4)))%Q]); [exact (full_multipliers 4 (1 # 4) g2 el tau Hel Ht)|].
    apply (Forall2_Qeq_trans _ [(- (1 * 1))%Q]); [apply one_entry; reflexivity|]. apply Forall2_Qeq_sym. exact (full_multipliers 1 1 g1 el tau Hel Ht).
  - intros el tau Hel Ht. apply one_entry. reflexivity.
  - exact (full_violation 1 1 g1 1).
  - (apply (Qeq_trans _ (2 * (1 * ((1 # 4) * (1 # 4))))); [exact (full_violation 4 (1 # 4) g2 1)|reflexivity]).
Qed.
Lemma w_tank_both : exists o rx k nl s r e env1 q1' c1' q1 c1 env2 q2' c2' q2 c2,
    let b := [(3 # 4)%Q; (1 # 4)%Q] in let N := k_elements k in let pts := radau (k_degree k) in let F := fun (_ : nat) (x : Q) => x in
    tank_setting o rx k nl s r e b /\
    pass F radau o whole rx k nl s r e env1 q1' c1' q1 c1 /\ pass F radau o whole rx k nl s r e env2 q2' c2' q2 c2 /\ same_data o N q1 q2 /\
    everywhere N pts (raised F rx N q1' c1') (multipliers_at F rx N q2' c2') /\
    everywhere N pts (fun el tau => map (Qmult 4) (weights_at rx N q1' c1' el tau)) (weights_at rx N q2' c2') /\
    (forall el tau, el < N -> In tau pts -> Forall (fun m => 0 <= m)%Q (weights_at rx N q1' c1' el tau)) /\
    (violation F rx N pts b (weights_at rx N q1' c1') q1' c1' == 2)%Q /\ (violation F rx N pts b (weights_at rx N q1' c1') q2' c2' == 0)%Q.
Proof.
  destruct tank_set as [e [HS H]]. destruct (H 1%Q 1%Q eq_refl ltac:(discriminate)) as [env1 [g1 P1]]. destruct (H 4%Q 0%Q eq_refl ltac:(discriminate)) as [env2 [g2 P2]].
  do 6 eexists. exists e. do 10 eexists. cbv zeta. split; [exact HS|]. split; [exact P1|]. split; [exact P2|].
  split; [exact (proj1 (full_data 1 1 g1 4 0 g2))|]. split; [|split; [|split; [|split]]].
  - intros el tau Hel Ht. apply (Forall2_Qeq_trans _ [(- (4 * 0))%Q]); [exact (full_multipliers 4 0 g2 el tau Hel Ht)|].
    apply (Forall2_Qeq_trans _ [0%Q]); [apply one_entry; reflexivity|]. apply Forall2_Qeq_sym. exact (full_raised 1 1 g1 el tau Hel Ht).
  - intros el tau Hel Ht. apply one_entry. reflexivity.
  - intros el tau Hel Ht. repeat constructor. discriminate.
  - exact (full_violation 1 1 g1 1).
  - exact (full_violation 4 0 g2 1).
Qed.

(** The pass after the update of the example of C90, with any solution: here the same one. *)
Definition tank_next_q' : trajectory :=
  mkTrajectory (fun _ i => match i with 0 => [1%Q] | _ => [] end) (fun _ _ => []) (fun _ => [1%Q; 2%Q; 1%Q; 2%Q])
    (given_p None ++ st_mu (take_nu_tilde tank_updated)) (fun el => given_in None el ++ nu_in (take_nu_tilde tank_updated) el) [] [1%Q; 0%Q] [].
Lemma tank_next_reads : reads drain_k2 (radau 2) tank_solution (given_p None ++ st_mu (take_nu_tilde tank_updated))
    (fun el => given_in None el ++ nu_in (take_nu_tilde tank_updated) el) tank_next_q'.
Proof.
  constructor; try reflexivity.
  - intros el i Hel Hi. cbn in Hi. split; [destruct i as [|[|i]]; cbn; lia|]. intros j tau v Hj Hv.
    destruct (two_elements el Hel) as [-> | ->]; destruct i as [|[|i]]; try lia; destruct j as [|[|[|j]]]; try (destruct j; discriminate Hj);
      cbn in Hj, Hv; injection Hj as <-; injection Hv as <-; cbn; reflexivity.
  - intros el i Hel Hi. cbn in Hi. lia.
  - intros el l Hl. destruct el as [|[|el]]; [| |destruct el; discriminate]; cbn in Hl; injection Hl as <-; reflexivity.
Qed.
Lemma w_tank_next : exists o rx k nl s r vars st tr q1' c1' st' errors tr2 q2' c2',
    drain_problem [] = Ok o /\ drain_relaxed [] whole = Ok rx /\ drain_method [] whole 2 = Ok k /\
    relaxation same_expr radau drain_options whole o 100 rx /\
    direct_setting radau (fun _ e => e) k 1000 nl s r (rx_problem rx) 60 61 200 /\ al_degree drain_options = k_degree k /\
    o_p_opt o = [] /\ o_theta_opt o = [] /\
    (forall e v, In e (written o) -> In v (60 :: 61 :: m_u_par (k_model k)) -> ~ mentions e v) /\ NoDup vars /\
    let a := mkAugmented k vars (rx_alg rx) (rx_eq rx) (rx_mu_sym rx) (rx_nu_pol rx) in
    fitting a (m_p (o_model o)) (m_theta (o_model o)) st None None /\ collocation_shape k tr /\
    reads k (radau (k_degree k)) tr (given_p None ++ st_mu st) (fun el => given_in None el ++ nu_in st el) q1' /\
    followed (rx_problem rx) (k_elements k) (radau (k_degree_control k)) q1' c1' /\
    al_skip_compute drain_options = false /\ al_skip_nu drain_options = false /\ al_improve drain_options = false /\
    al_skip_mu drain_options = false /\ al_rule drain_options = "bounded-increase"%string /\
    Forall (fun m => m * al_beta drain_options <= al_mu_max drain_options)%Q (st_mu st) /\
    update_parameters (fun _ x => x) drain_options (create_nu_update_func radau a) (k_elements k) None None (flatten tr) st = (st', Ok errors) /\
    let st2 := take_nu_tilde st' in collocation_shape k tr2 /\
    reads k (radau (k_degree k)) tr2 (given_p None ++ st_mu st2) (fun el => given_in None el ++ nu_in st2 el) q2' /\
    forall el, el < k_elements k -> Forall2 Qeq (weights_at rx (k_elements k) q2' c2' el 1%Q) [4%Q] /\
      Forall2 Qeq (multipliers_at (fun _ x => x) rx (k_elements k) q2' c2' el (1 # 3)%Q) [3%Q] /\
      Forall2 Qeq (multipliers_at (fun _ x => x) rx (k_elements k) q2' c2' el 1%Q) [4%Q].
Proof.
  exists drain_o, drain_rx, drain_k2, tank_nl, tank_s, tank_r, (seq 300 (collocation_size drain_k2)),
    tank_state, tank_solution, (tank_q' 0%Q), (tank_c' 0%Q), tank_updated, tank_errors, tank_solution, tank_next_q', (tank_c' 0%Q).
  split; [exact drain_problem_is|]. split; [exact drain_relaxed_is|]. split; [exact drain_method2_is|].
  split; [exact drain_relaxation|]. split; [exact drain_setting2|]. do 3 (split; [reflexivity|]).
  split; [exact tank_new|]. split; [apply seq_NoDup|]. cbv zeta.
  split; [exact tank_fitting|]. split; [exact tank_shape|]. split; [exact tank_reads|]. split; [exact tank_followed|].
  do 5 (split; [reflexivity|]). split; [repeat constructor; discriminate|]. split; [exact tank_update|]. split; [exact tank_shape|].
  split; [exact tank_next_reads|].
  intros el Hel. destruct (two_elements el Hel) as [-> | ->]; (split; [|split]); constructor; try constructor; vm_compute; reflexivity.
Qed.

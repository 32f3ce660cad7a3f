(** Proofs about plans: the conditions and the costs of the prepared problem are those of
    the problem of the user. *)
From Coq Require Import String Lqa.
From Verif Require Import Base BaseProofs UtilModel UtilProofs ExprModel ExprProofs NlpModel NlpSpec NlpProofs SysModel
  SysSpec SysProofs SimModel SimProofs OcpModel OcpSpec OcpMoreProofs LagModel LagSpec LagProofs DiscModel DiscSpec DiscProofs
  ColSpec ColEvalProofs ColMainProofs ColTopProofs DirSpec DirProofs DirColProofs DirTopProofs
  ShoModel ShoSpec ShoShotProofs ShoProofs ShoTopProofs ShoMoreProofs DmsSpec DmsRkProofs DmsProofs DmsPlanProofs.
Local Open Scope list_scope.
Local Open Scope nat_scope.

Lemma Forall2_Qeq_trans : forall x y z, Forall2 Qeq x y -> Forall2 Qeq y z -> Forall2 Qeq x z.
Proof.
  intros x y z H. revert z. induction H as [|a b x y Hab H IH]; intros z Hz; inversion Hz; subst; constructor; [rewrite Hab; assumption | apply IH; assumption].
Qed.
Lemma Forall2_Qeq_sym : forall x y, Forall2 Qeq x y -> Forall2 Qeq y x.
Proof. intros x y H. induction H as [|a b x y Hab H IH]; constructor; [symmetry; exact Hab | exact IH]. Qed.
Lemma Forall2_snoc : forall a b x y, Forall2 Qeq (a ++ [x]) (b ++ [y]) <-> Forall2 Qeq a b /\ (x == y)%Q.
Proof.
  intros a b x y. split.
  - revert b. induction a as [|u a IH]; intros [|v b] H; cbn in H; inversion H as [|? ? ? ? H1 H2]; subst.
    + split; [constructor | exact H1].
    + destruct b; inversion H2.
    + destruct a; inversion H2.
    + destruct (IH b H2) as [A B]. split; [constructor; assumption | exact B].
  - intros [H E]. apply Forall2_app; [exact H | constructor; [exact E | constructor]].
Qed.
Lemma qsum_eq : forall (f g : nat -> Q) l, (forall i, In i l -> (f i == g i)%Q) -> (qsum (map f l) == qsum (map g l))%Q.
Proof.
  intros f g l H. induction l as [|i l IH]; [reflexivity|]. cbn [map qsum fold_right] in *. unfold qsum in *. cbn [fold_right].
  rewrite IH by (intros j Hj; apply H; right; exact Hj). rewrite (H i) by (left; reflexivity). reflexivity.
Qed.

(** Values of the right size, as far as they matter. *)
Record plan_fits (k : method) (n : nat) (h : shooting) : Prop := mkPlanFits
  { pf_x : forall el, el <= k_elements k -> length (h_x h el) = n + 1;
    pf_y : forall el, el < k_elements k -> length (h_y h el) = length (m_y (k_model k));
    pf_u : forall el, el < k_elements k -> length (h_u h el) = length (m_u_par (k_model k));
    pf_p : length (h_p h) = length (m_p (k_model k));
    pf_theta : forall el, el < k_elements k -> length (h_theta h el) = length (m_theta (k_model k));
    pf_x0 : length (h_x0 h) = n + 1 }.

Section Core.
  Variables (F : nat -> Q -> Q) (flow : flow_of_fields) (total : integral_along) (upts : list Q) (x_c x_c0 : sym) (o : ocp) (k : method) (l : expr).
  Hypothesis HF : respects F.
  Hypothesis P : prepared F upts x_c x_c0 o (k_problem k).
  Let m := o_model o.
  Let n := length (m_x m).
  Let par := m_u_par (k_model k).
  Let N := k_elements k.
  Hypothesis Hposed : posed o (x_c :: x_c0 :: par).
  Hypothesis HN : 0 < N.
  Hypothesis El : o_L o = [l].
  Hypothesis Hsum : k_cost_as_sum k = false.

  Section Values.
    Variables (h : shooting) (c : nat -> nat -> list Q).
    Hypothesis Fit : plan_fits k n h.
    Hypothesis Hc : steers o N upts h c.

    Lemma Lp : length (h_p h) = length (m_p m).
    Proof. rewrite (pf_p _ _ _ Fit). destruct (plan_sizes _ _ _ _ _ _ P) as [_ [_ [_ [_ [-> _]]]]]. reflexivity. Qed.
    Lemma Lth : forall el, el < N -> length (h_theta h el) = length (m_theta m).
    Proof. intros el Hel. rewrite (pf_theta _ _ _ Fit el Hel). destruct (plan_sizes _ _ _ _ _ _ P) as [_ [_ [_ [_ [_ ->]]]]]. reflexivity. Qed.
    Lemma Ly : forall el, el < N -> length (h_y h el) = length (m_y m).
    Proof. intros el Hel. rewrite (pf_y _ _ _ Fit el Hel). destruct (plan_sizes _ _ _ _ _ _ P) as [_ [-> _]]. reflexivity. Qed.

    Notation at_plan el t tau x y := (eval F (plan_point o h c el t tau x y)).
    Lemma value : forall e e' el t tau x y, el < N -> length x = n + 1 -> length y = length (m_y m) -> In e (written o) ->
        steered F m upts par e e' -> (eval F (point_of k h el t tau x y) e' == at_plan el t tau (firstn n x) y e)%Q.
    Proof.
      exact (fun e e' el t tau x y A B C D E => plan_value F upts x_c x_c0 o k h c P (po_symbols _ _ Hposed) (po_initial _ _ Hposed) (po_new _ _ Hposed)
        (pf_u _ _ _ Fit) Lp Lth (pf_x0 _ _ _ Fit) Hc e e' el t tau x y A B C D E).
    Qed.
    Lemma zero : forall es es' el t tau x y, el < N -> length x = n + 1 -> length y = length (m_y m) -> (forall e, In e es -> In e (written o)) ->
        Forall2 (steered F m upts par) es es' ->
        (all_zero F es' (point_of k h el t tau x y) <-> all_zero F es (plan_point o h c el t tau (firstn n x) y)).
    Proof.
      exact (fun es es' el t tau x y A B C D E => zero_iff F upts x_c x_c0 o k h c P (po_symbols _ _ Hposed) (po_initial _ _ Hposed) (po_new _ _ Hposed)
        (pf_u _ _ _ Fit) Lp Lth (pf_x0 _ _ _ Fit) Hc es es' el t tau x y A B C D E).
    Qed.
    Lemma not_control : forall s, In s (x_c :: x_c0 :: par) -> ~ In s (m_u m).
    Proof.
      intros s Hs I. refine (NoDup_app_disjoint _ _ _ s (po_symbols _ _ Hposed) _ Hs). unfold user_symbols. fold m. cbn. rewrite !in_app_iff. tauto.
    Qed.
    Lemma values_at : forall el t tau x y, el < N -> length x = n + 1 -> length y = length (m_y m) ->
      let env := point_of k h el t tau x y in
      env (m_tau m) = tau /\ map env par = h_u h el /\ env x_c = nth n x 0%Q /\ env x_c0 = nth n (h_x0 h) 0%Q.
    Proof.
      exact (fun el t tau x y A B C => plan_values F upts x_c x_c0 o k h c P (po_symbols _ _ Hposed) (po_initial _ _ Hposed)
        (pf_u _ _ _ Fit) Lp Lth (pf_x0 _ _ _ Fit) el t tau x y A B C).
    Qed.

    Lemma cost_states : forall e' el t tau x y, el < N -> length x = n + 1 -> length y = length (m_y m) ->
        steered F m upts par (EBin OSub (EVar x_c0) (EVar x_c)) e' ->
        (eval F (point_of k h el t tau x y) e' == nth n (h_x0 h) 0 - nth n x 0)%Q.
    Proof.
      intros e' el t tau x y Hel Lx Hy S. destruct (values_at el t tau x y Hel Lx Hy) as [_ [E [E1 E2]]].
      rewrite (S _ (c el)).
      - cbn [eval binop_eval]. unfold with_controls. rewrite !assign_notin by (apply not_control; cbn; tauto). rewrite E1, E2. reflexivity.
      - rewrite E. apply Hc, Hel.
    Qed.
    Lemma final_value : forall v v' el t tau x y, el < N -> length x = n + 1 -> length y = length (m_y m) -> In v (written o) ->
        steered F m upts par (EBin OAdd v (EVar x_c)) v' ->
        (eval F (point_of k h el t tau x y) v' == at_plan el t tau (firstn n x) y v + nth n x 0)%Q.
    Proof.
      intros v v' el t tau x y Hel Lx Hy Hw S. destruct (values_at el t tau x y Hel Lx Hy) as [_ [E [E1 _]]].
      rewrite (S _ (c el)).
      - cbn [eval binop_eval]. rewrite (eval_ext F _ (plan_point o h c el t tau (firstn n x) y) v).
        + unfold with_controls at 1. rewrite assign_notin by (apply not_control; cbn; tauto). rewrite E1. reflexivity.
        + intros s Hs. apply (plan_agree F upts x_c x_c0 o k h c P (po_symbols _ _ Hposed) (po_initial _ _ Hposed)
            (pf_u _ _ _ Fit) Lp Lth (pf_x0 _ _ _ Fit) el t tau x y s Hel Lx Hy). intros I. exact (po_new _ _ Hposed v s Hw I Hs).
      - rewrite E. apply Hc, Hel.
    Qed.
    Lemma plan_Qeq : forall el t tau x x' y y' e, Forall2 Qeq x x' -> Forall2 Qeq y y' -> (at_plan el t tau x y e == at_plan el t tau x' y' e)%Q.
    Proof.
      intros el t tau x x' y y' e Hx Hy. apply eval_ext_Qeq; [exact HF|]. intros s _. apply assign_Qeq.
      constructor; [reflexivity|]. constructor; [reflexivity|]. apply Forall2_app; [exact Hx|]. apply Forall2_app; [exact Hy | apply Forall2_Qeq_refl].
    Qed.

    (** ** The conditions *)

    Variables (ends sims : nat -> list Q * list Q).
    Hypothesis Hends : forall el, el < N ->
      Forall2 Qeq (fst (sims el)) (fst (ends el) ++ [(nth n (h_x h el) 0 + spent F total o N h c l el)%Q]) /\
      Forall2 Qeq (snd (sims el)) (snd (ends el)).
    Hypothesis Lsims : forall el, el < N -> length (fst (sims el)) = n + 1 /\ length (snd (sims el)) = length (m_y m).

    Lemma arrival_value : forall e e' el, el < N -> In e (written o) -> steered F m upts par e e' ->
        (eval F (end_point k h sims el) e' == eval F (plan_arrival o N h c ends el) e)%Q.
    Proof.
      intros e e' el Hel Hw S. destruct (Lsims el Hel) as [L1 L2]. destruct (Hends el Hel) as [E1 E2]. unfold end_point, plan_arrival.
      rewrite (value e e' el _ _ _ _ Hel L1 L2 Hw S). rewrite (plan_boundary F upts x_c x_c0 o k P). apply plan_Qeq; [|exact E2].
      pose proof (firstn_Qeq n _ _ E1) as G.
      assert (Lf : length (fst (ends el)) = n).
      { pose proof (Forall2_length_Q _ _ E1) as L. rewrite L1, app_length in L. cbn [length] in L. lia. }
      rewrite firstn_app, Lf, Nat.sub_diag, firstn_O, app_nil_r, <- Lf, firstn_all in G. rewrite Lf in G. exact G.
    Qed.
    Lemma written_in : forall e, In e (o_V o) \/ In e (o_S o) \/ In e (o_h_initial o) \/ In e (o_h_final o) \/ In e (o_h o) \/ In e (o_g_ineq o) \/ In e (o_g_eq o) -> In e (written o).
    Proof. intros e H. unfold written. rewrite !in_app_iff. tauto. Qed.

    Lemma joined_iff : forall el, el < N -> (Forall2 Qeq (fst (sims el)) (h_x h (S el)) <->
        Forall2 Qeq (fst (ends el)) (state o h (S el)) /\ (nth n (h_x h (S el)) 0 == nth n (h_x h el) 0 + spent F total o N h c l el)%Q).
    Proof.
      intros el Hel. destruct (Hends el Hel) as [E1 _]. unfold state. fold m. fold n.
      rewrite (last_split (h_x h (S el)) n (pf_x _ _ _ Fit (S el) Hel)) at 1. split.
      - intros H. pose proof (Forall2_Qeq_trans _ _ _ (Forall2_Qeq_sym _ _ E1) H) as G. apply Forall2_snoc in G. destruct G as [A B].
        split; [exact A | symmetry; exact B].
      - intros [A B]. apply (Forall2_Qeq_trans _ _ _ E1). apply Forall2_snoc. split; [exact A | symmetry; exact B].
    Qed.

    Theorem core : shot_through F k h sims <-> works F o N h c ends /\ collects F total o N h c n l.
    Proof.
      destruct (pr_constraints _ _ _ _ _ _ P) as [_ [C1 [C2 [C3 [C4 C5]]]]]. fold m in C1, C2, C3, C4, C5. fold (k_model k) in C1, C2, C3, C4, C5. fold par in C1, C2, C3, C4, C5.
      apply Forall2_app_inv_l in C1. destruct C1 as [i1 [i2 [C1 [C1' Ei]]]]. inversion C1' as [|? e0 ? ? C0 Cn]; subst. inversion Cn; subst. clear C1' Cn.
      destruct (pr_same _ _ _ _ _ _ P) as [_ [_ [_ [Edu _]]]]. injection Edu as Edu1 Edu2.
      pose proof (pf_x _ _ _ Fit 0 (Nat.le_0_l _)) as L0. pose proof (pf_x _ _ _ Fit N (le_n _)) as LN.
      assert (HN1 : N - 1 < N) by lia. pose proof (Ly 0 HN) as Ly0. pose proof (Ly _ HN1) as LyN.
      assert (First : all_zero F (o_h_initial (k_problem k)) (first_point k h) <->
                all_zero F (o_h_initial o) (plan_start o h c) /\ (nth n (h_x h 0) 0 == nth n (h_x0 h) 0)%Q).
      { rewrite Ei. unfold first_point, plan_start, state. fold m. fold n.
        rewrite <- (zero _ _ 0 0%Q 0%Q (h_x h 0) (h_y h 0) HN L0 Ly0 (fun e He => written_in e (or_intror (or_intror (or_introl He)))) C1).
        pose proof (cost_states e0 0 0%Q 0%Q (h_x h 0) (h_y h 0) HN L0 Ly0 C0) as V. split.
        - intros H. split; [intros e He; apply H, in_app_iff; left; exact He|].
          assert (G : (eval F (point_of k h 0 0%Q 0%Q (h_x h 0) (h_y h 0)) e0 == 0)%Q) by (apply H, in_app_iff; right; left; reflexivity).
          rewrite V in G. lra.
        - intros [A B] e He. apply in_app_iff in He. destruct He as [He|[<-|[]]]; [exact (A e He)|]. rewrite V. lra. }
      assert (Last : forall es es', (forall e, In e es -> In e (written o)) -> Forall2 (steered F m upts par) es es' ->
                (all_zero F es' (last_point k h) <-> all_zero F es (plan_end o N h c))).
      { intros es es' Hw S. unfold last_point, plan_end, state. fold m. fold n. rewrite (plan_boundary F upts x_c x_c0 o k P).
        apply (zero es es' (N - 1) _ 1%Q (h_x h N) (h_y h (N - 1)) HN1 LN LyN Hw S). }
      assert (Arr : forall es es' (R : Q -> Prop), (forall a b, (a == b)%Q -> R a -> R b) -> (forall e, In e es -> In e (written o)) -> Forall2 (steered F m upts par) es es' ->
                forall el, el < N -> ((forall g, In g es' -> R (eval F (end_point k h sims el) g)) <-> (forall g, In g es -> R (eval F (plan_arrival o N h c ends el) g)))).
      { intros es es' R HR Hw S el Hel. split; intros H g Hg; apply In_nth_error in Hg; destruct Hg as [i Hi].
        - destruct (Forall2_nth_l _ _ _ _ _ _ _ S Hi) as [g' [Hg' Sg]]. apply (HR (eval F (end_point k h sims el) g')); [|apply H, (nth_error_In _ _ Hg')].
          apply arrival_value; [exact Hel | apply Hw, (nth_error_In _ _ Hi) | exact Sg].
        - destruct (Forall2_nth_r _ _ _ _ _ _ _ S Hi) as [g' [Hg' Sg]]. apply (HR (eval F (plan_arrival o N h c ends el) g')); [|apply H, (nth_error_In _ _ Hg')].
          symmetry. apply arrival_value; [exact Hel | apply Hw, (nth_error_In _ _ Hg') | exact Sg]. }
      assert (Cont : forall x, continued k x = x) by (intros x; unfold continued; rewrite Hsum, Bool.andb_false_r; reflexivity).
      assert (Alg : forall el, el < N -> (Forall2 Qeq (snd (sims el)) (h_y h el) <-> Forall2 Qeq (snd (ends el)) (h_y h el))).
      { intros el Hel. destruct (Hends el Hel) as [_ E2]. split; intros H; [apply (Forall2_Qeq_trans _ _ _ (Forall2_Qeq_sym _ _ E2) H) | apply (Forall2_Qeq_trans _ _ _ E2 H)]. }
      assert (W2 : forall e, In e (o_h_final o) -> In e (written o)) by (intros e He; apply written_in; tauto).
      assert (W3 : forall e, In e (o_h o) -> In e (written o)) by (intros e He; apply written_in; tauto).
      assert (W4 : forall e, In e (o_g_ineq o) -> In e (written o)) by (intros e He; apply written_in; tauto).
      assert (W5 : forall e, In e (o_g_eq o) -> In e (written o)) by (intros e He; apply written_in; tauto).
      assert (Rle : forall a b, (a == b)%Q -> (a <= 0)%Q -> (b <= 0)%Q) by (intros a b E H; lra).
      assert (Req : forall a b, (a == b)%Q -> (a == 0)%Q -> (b == 0)%Q) by (intros a b E H; lra).
      split.
      - intros [S1 S2 S3 S4 S5 S6 S7 S8]. apply First in S1. destruct S1 as [S1 S1']. split.
        + constructor.
          * exact S1.
          * intros el Hel. apply (joined_iff el Hel). rewrite <- (Cont (fst (sims el))). apply S2, Hel.
          * intros el Hel. apply (Alg el Hel), S3, Hel.
          * intros el i lo hi Hel Hlo Hhi. apply S4; [exact Hel | rewrite Edu1; exact Hlo | rewrite Edu2; exact Hhi].
          * intros el g Hel. revert g. apply (Arr _ _ (fun q => (q <= 0)%Q) Rle W4 C4 el Hel). intros g Hg. exact (S5 el g Hel Hg).
          * intros el g Hel. revert g. apply (Arr _ _ (fun q => (q == 0)%Q) Req W5 C5 el Hel). intros g Hg. exact (S6 el g Hel Hg).
          * apply (Last _ _ W2 C2), S7.
          * apply (Last _ _ W3 C3), S8.
        + constructor; [exact S1'|]. intros el Hel. apply (joined_iff el Hel). rewrite <- (Cont (fst (sims el))). apply S2, Hel.
      - intros [[S1 S2 S3 S4 S5 S6 S7 S8] [T1 T2]]. constructor.
        + apply First. split; assumption.
        + intros el Hel. rewrite Cont. apply (joined_iff el Hel). split; [apply S2, Hel | apply T2, Hel].
        + intros el Hel. apply (Alg el Hel), S3, Hel.
        + intros el i lo hi Hel Hlo Hhi. rewrite Edu1 in Hlo. rewrite Edu2 in Hhi. apply S4; assumption.
        + intros el g Hel. revert g. apply (Arr _ _ (fun q => (q <= 0)%Q) Rle W4 C4 el Hel). intros g Hg. exact (S5 el g Hel Hg).
        + intros el g Hel. revert g. apply (Arr _ _ (fun q => (q == 0)%Q) Req W5 C5 el Hel). intros g Hg. exact (S6 el g Hel Hg).
        + apply (Last _ _ W2 C2), S7.
        + apply (Last _ _ W3 C3), S8.
    Qed.

    (** ** The cost *)

    Lemma collected : collects F total o N h c n l -> forall el, el <= N ->
        (nth n (h_x h el) 0 == nth n (h_x0 h) 0 + qsum (map (spent F total o N h c l) (seq 0 el)))%Q.
    Proof.
      intros [T1 T2] el. induction el as [|el IH]; intros Hel.
      - rewrite T1. cbn. lra.
      - rewrite T2 by lia. rewrite IH by lia. rewrite seq_S, map_app, qsum_app. cbn [map Nat.add]. unfold qsum at 3. cbn [fold_right]. lra.
    Qed.
    Theorem core_cost : forall v w v' w', o_V o = [v] -> o_S o = [w] -> steered F m upts par (EBin OAdd v (EVar x_c)) v' -> steered F m upts par w w' ->
        collects F total o N h c n l ->
        (eval F (last_point k h) v' + running_cost F k h w' sims == plan_cost F total o N h c v l w ends + nth n (h_x0 h) 0)%Q.
    Proof.
      intros v w v' w' Ev Ew Sv Sw Hco.
      assert (HN1 : N - 1 < N) by lia. pose proof (pf_x _ _ _ Fit N (le_n _)) as LN. pose proof (Ly _ HN1) as LyN.
      pose proof (final_value v v' (N - 1) (boundary k N) 1%Q (h_x h N) (h_y h (N - 1)) HN1 LN LyN ltac:(apply written_in; rewrite Ev; left; left; reflexivity) Sv) as V.
      unfold last_point. fold N. rewrite V. rewrite (collected Hco N (le_n _)). unfold plan_cost, plan_end, state. fold m. fold n.
      rewrite (plan_boundary F upts x_c x_c0 o k P).
      assert (R : (running_cost F k h w' sims == qsum (map (fun el => eval F (plan_arrival o N h c ends el) w) (seq 0 N)))%Q).
      { unfold running_cost. apply qsum_eq. intros el Hel. apply in_seq in Hel. apply arrival_value; [lia | apply written_in; rewrite Ew; right; left; left; reflexivity | exact Sw]. }
      rewrite R. fold N. lra.
    Qed.
  End Values.
End Core.

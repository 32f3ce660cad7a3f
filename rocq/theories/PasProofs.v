(** Successive passes of the augmented Lagrangian method. *)
From Coq Require Import String Qabs Qminmax Lqa Setoid.
From Verif Require Import Base BaseProofs UtilModel UtilProofs ExprModel ExprProofs NlpModel NlpSpec SysModel SysSpec SysProofs
   OcpModel OcpSpec LagModel LagSpec LagProofs DiscModel DiscSpec DiscProofs ColSpec ColEvalProofs ColPolyProofs ColTopProofs
   DirSpec DirProofs DirColProofs DirTopProofs AugModel AugSpec AugRelaxProofs AugLoopProofs AugMoreProofs AlsSpec AlsRelaxProofs AlsProofs
   AlsMoveProofs AlsTopProofs IndSpec MulSpec MulProofs PasSpec.
Local Open Scope list_scope.
Local Open Scope nat_scope.

(** ** Trajectories with other weights and multipliers *)

Section Moved.
  Variables (F : nat -> Q -> Q) (idx vidx eqs : list nat) (mu par : list sym) (pol : list expr) (o o' : ocp) (N : nat).
  Hypothesis HL : loosened F idx vidx eqs mu par pol o o'.
  Hypothesis Hsym : NoDup (user_symbols o').
  Hypothesis Hnames : NoDup (m_y (o_model o)).
  Hypothesis HN : 0 < N.
  Hypothesis Hx0 : length (m_x_0 (o_model o)) = length (m_x (o_model o)).
  Hypothesis Hfresh : forall e v, In e (written o) -> mentions e v -> ~ In v (mu ++ par).
  Hypothesis Hode : length (m_ode (o_model o)) <= length (m_x (o_model o)).
  Hypothesis Halign : aligned o.
  Hypothesis Hcount : length (m_alg (o_model o)) = length (m_y (o_model o)).
  Hypothesis Hpairs : length vidx = length idx.
  Hypothesis Htimes : length (o_when_eq o) = length (o_g_eq o).
  Variables (q : trajectory) (c : nat -> nat -> list Q) (q1 : trajectory) (c1 : nat -> nat -> list Q)
    (q2 : trajectory) (c2 : nat -> nat -> list Q).
  Hypothesis HS1 : same_trajectory o vidx N q c q1 c1.
  Hypothesis HS2 : same_trajectory o vidx N q c q2 c2.
  Hypothesis Z1 : length (q_p q1) = length (m_p (o_model o')) /\
    (forall el, el < N -> length (q_theta q1 el) = length (m_theta (o_model o'))) /\ length (m_x (o_model o)) <= length (q_x0 q1).
  Hypothesis Z2 : length (q_p q2) = length (m_p (o_model o')) /\
    (forall el, el < N -> length (q_theta q2 el) = length (m_theta (o_model o'))) /\ length (m_x (o_model o)) <= length (q_x0 q2).

  Lemma moved_eval : forall el tau e, el < N -> In e (written o) ->
      eval F (user_point o' N q2 c2 el tau) e = eval F (user_point o' N q1 c1 el tau) e.
  Proof.
    intros el tau e Hel He. destruct Z1 as [A1 [A2 A3]]. destruct Z2 as [B1 [B2 B3]].
    rewrite (same_eval F idx vidx eqs mu par pol o o' N HL Hsym Hnames HN Hx0 Hfresh Hode q c q2 c2 HS2 B1 B2 B3 el tau e Hel He).
    rewrite (same_eval F idx vidx eqs mu par pol o o' N HL Hsym Hnames HN Hx0 Hfresh Hode q c q1 c1 HS1 A1 A2 A3 el tau e Hel He).
    reflexivity.
  Qed.
  Lemma moved_vanishing : forall es el tau, el < N -> incl es (written o) ->
      user_vanishes F o' N q1 c1 es el tau -> user_vanishes F o' N q2 c2 es el tau.
  Proof. intros es el tau Hel Hi H e He. rewrite moved_eval by (try exact Hel; apply Hi; exact He). exact (H e He). Qed.

  Lemma moved_collocated : forall pts, user_collocated F o' N q1 c1 pts -> user_collocated F o' N q2 c2 pts.
  Proof.
    intros pts [U1 U2 U3 U4 U5 U6 U7 U8 U9].
    destruct (lo_same _ _ _ _ _ _ _ _ _ HL) as [E1 [_ [_ [Ewi _]]]]. cbv zeta in E1. injection E1 as Ex _ _ _.
    destruct (lo_bounds _ _ _ _ _ _ _ _ _ HL) as [lo [hi [_ [_ [_ [_ [_ [_ [Edl Edh]]]]]]]]].
    destruct (lo_equations _ _ _ _ _ _ _ _ _ HL) as [Eo [Ea [Eg [Ei [Ehi [Ehf [Eh _]]]]]]].
    destruct Halign as [_ [_ [[_ [_ [Adl Adh]]] _]]].
    assert (Wode : forall i s e, nth_error (m_ode (o_model o)) i = Some (s, Some e) -> In e (written o)).
    { intros i s e Hi. apply in_written. do 9 right. exists s. exact (nth_error_In _ _ Hi). }
    assert (Sx : forall el i, el < N -> i < length (m_x (o_model o)) -> q_x q2 el i = q_x q1 el i).
    { intros el i Hel Hi. rewrite (st_x _ _ _ _ _ _ _ HS2 el i Hel Hi), (st_x _ _ _ _ _ _ _ HS1 el i Hel Hi). reflexivity. }
    destruct Z1 as [A1 [A2 A3]]. destruct Z2 as [B1 [B2 B3]].
    constructor.
    - rewrite Ehi in *. apply moved_vanishing; [exact HN|intros e He; apply in_written; tauto|exact U1].
    - intros el i Hel Hi. rewrite Ex in Hi. rewrite !Sx by (assumption || lia). apply U2; [exact Hel|rewrite Ex; exact Hi].
    - intros el tau i s e Hel Ht Hi. pose proof Hi as Hi'. rewrite Eo in Hi.
      assert (Hlt : i < length (m_x (o_model o))) by (apply (Nat.lt_le_trans _ (length (m_ode (o_model o)))); [exact (nth_lt _ _ _ _ Hi)|exact Hode]).
      rewrite (Sx el i Hel Hlt), moved_eval by (try exact Hel; exact (Wode _ _ _ Hi)). exact (U3 el tau i s e Hel Ht Hi').
    - intros el tau Hel Ht Hy. pose proof (U4 el tau Hel Ht Hy) as H. rewrite Ea in *.
      apply moved_vanishing; [exact Hel|intros e He; apply in_written; apply others_incl in He; tauto|exact H].
    - intros el i l h Hel Hl Hh. pose proof (U5 el i l h Hel Hl Hh) as H. rewrite Edl in Hl. rewrite Edh in Hh.
      destruct (Nat.lt_ge_cases i (length (m_u (o_model o)))) as [Hlt|Hgt].
      + apply (ext_le_compat l h (increment q2 el i) (increment q1 el i)); [|exact H].
        rewrite (same_increment idx vidx o o' N HN Hx0 Hode q c q2 c2 HS2 B1 B3 Hcount Hpairs Htimes el i Hel Hlt).
        rewrite (same_increment idx vidx o o' N HN Hx0 Hode q c q1 c1 HS1 A1 A3 Hcount Hpairs Htimes el i Hel Hlt). reflexivity.
      + rewrite nth_error_app2 in Hl, Hh by lia. apply nth_error_In in Hl. apply nth_error_In in Hh.
        apply repeat_spec in Hl. apply repeat_spec in Hh. subst l h. cbn. tauto.
    - intros el j g w tau Hel Hg Hw Ht. pose proof (U6 el j g w tau Hel Hg Hw Ht) as H. rewrite Ei in Hg.
      rewrite moved_eval by (try exact Hel; apply in_written; pose proof (nth_error_In _ _ Hg); tauto). exact H.
    - intros el j g w tau Hel Hg Hw Ht. pose proof (U7 el j g w tau Hel Hg Hw Ht) as H. rewrite Eg in Hg.
      assert (Hin : In g (o_g_eq o)) by (apply nth_error_In in Hg; exact (others_incl _ _ _ _ Hg)).
      rewrite moved_eval by (try exact Hel; apply in_written; tauto). exact H.
    - rewrite Ehf in *. apply moved_vanishing; [lia|intros e He; apply in_written; tauto|exact U8].
    - rewrite Eh in *. apply moved_vanishing; [lia|intros e He; apply in_written; tauto|exact U9].
  Qed.
End Moved.

(** ** Integrals *)

Lemma sum_nonneg : forall l, (forall x, In x l -> 0 <= x)%Q -> (0 <= qsum l)%Q.
Proof.
  induction l as [|a l IH]; intros H; [apply Qle_refl|]. cbn [qsum]. pose proof (H a (or_introl eq_refl)).
  pose proof (IH (fun x Hx => H x (or_intror Hx))). lra.
Qed.
Lemma skipn_entry : forall (A : Type) n (l : list A) i, nth_error (skipn n l) i = nth_error l (n + i).
Proof. intros A n. induction n as [|n IH]; intros l i; [reflexivity|]. destruct l as [|a l]; [destruct i; reflexivity|]. cbn. apply IH. Qed.

Section Integrals.
  Variables (rx : relaxing) (N : nat) (pts b : list Q).
  Let I := integrated rx N pts b.
  Lemma int_ext : forall f h, (forall el tau, el < N -> In tau pts -> (f el tau == h el tau)%Q) -> (I f == I h)%Q.
  Proof.
    intros f h H. apply qsum_same. intros el Hel. apply in_seq in Hel. apply Qmult_comp; [reflexivity|].
    apply qsum_same. intros [tau wt] Ht. cbn [fst snd]. rewrite H; [reflexivity|lia|exact (in_combine_l _ _ _ _ Ht)].
  Qed.
  Lemma int_plus : forall f h, (I (fun el tau => f el tau + h el tau) == I f + I h)%Q.
  Proof.
    intros f h. unfold I, integrated. apply qsum_split. intros el _. rewrite <- Qmult_plus_distr_r. apply Qmult_comp; [reflexivity|].
    apply qsum_split. intros tb _. ring.
  Qed.
  Lemma int_scale : forall a f, (I (fun el tau => a * f el tau) == a * I f)%Q.
  Proof.
    intros a f. unfold I, integrated. rewrite (Qmult_comm a). rewrite <- qsum_factor. apply qsum_same. intros el _.
    rewrite <- Qmult_assoc. apply Qmult_comp; [reflexivity|]. rewrite <- qsum_factor. apply qsum_same. intros tb _. ring.
  Qed.
  Lemma int_nonneg : forall f, (0 <= user_step (rx_problem rx) N)%Q -> Forall (fun x => 0 <= x)%Q b ->
      (forall el tau, el < N -> In tau pts -> (0 <= f el tau)%Q) -> (0 <= I f)%Q.
  Proof.
    intros f Hs Hb H. unfold I, integrated. apply sum_nonneg. intros x Hx. apply in_map_iff in Hx. destruct Hx as [el [<- Hel]].
    apply in_seq in Hel. apply Qmult_le_0_compat; [exact Hs|]. apply sum_nonneg. intros x Hx. apply in_map_iff in Hx.
    destruct Hx as [[tau wt] [<- Ht]]. cbn [fst snd]. rewrite Forall_forall in Hb.
    apply Qmult_le_0_compat; [exact (Hb wt (in_combine_r _ _ _ _ Ht))|]. apply H; [lia|exact (in_combine_l _ _ _ _ Ht)].
  Qed.
End Integrals.

(** ** One point *)

Definition sq (g : list Q) : list Q := map (fun x => x * x)%Q g.
Definition times (g1 g2 : list Q) : list Q := map (fun xy => fst xy * snd xy)%Q (combine g1 g2).
Lemma dot_compat : forall a a' b, Forall2 Qeq a a' -> (dot a b == dot a' b)%Q.
Proof.
  intros a a' b H. revert b. induction H as [|x x' a a' Hx H IH]; intros b; [reflexivity|]. destruct b as [|y b]; [reflexivity|].
  cbn [dot]. rewrite Hx, IH. reflexivity.
Qed.
Lemma dot_scaled : forall t a b, (dot (map (Qmult t) a) b == t * dot a b)%Q.
Proof.
  intros t a. induction a as [|x a IH]; intros b; [cbn; ring|]. destruct b as [|y b]; [cbn; ring|]. cbn [map dot]. rewrite IH. ring.
Qed.
Lemma point_same : forall nu nu2 mu mu2 g, Forall2 Qeq nu2 nu -> Forall2 Qeq mu2 mu -> (penalty_value nu2 mu2 g == penalty_value nu mu g)%Q.
Proof. intros nu nu2 mu mu2 g Hn Hm. unfold penalty_value. rewrite (dot_compat _ _ _ Hn), (dot_compat _ _ _ Hm). reflexivity. Qed.
Lemma point_scaled : forall nu nu2 mu mu2 g t, Forall2 Qeq nu2 nu -> Forall2 Qeq mu2 (map (Qmult t) mu) ->
    (penalty_value nu2 mu2 g == penalty_value nu mu g + (1 # 2) * (t - 1) * dot mu (sq g))%Q.
Proof.
  intros nu nu2 mu mu2 g t Hn Hm. unfold penalty_value. rewrite (dot_compat _ _ _ Hn), (dot_compat _ _ _ Hm), dot_scaled. unfold sq. ring.
Qed.
Lemma dot_lifted : forall nu mu g1 g, length nu = length g1 -> length mu = length g1 ->
    (dot (lifted nu mu g1) g == dot nu g + dot mu (times g1 g))%Q.
Proof.
  intros nu. induction nu as [|n nu IH]; intros mu g1 g L1 L2.
  - destruct g1; [|discriminate]. destruct mu; [|discriminate]. cbn. ring.
  - destruct g1 as [|x g1]; [discriminate|]. destruct mu as [|m mu]; [discriminate|]. destruct g as [|y g]; [cbn; ring|].
    specialize (IH mu g1 g ltac:(cbn in L1; lia) ltac:(cbn in L2; lia)). unfold lifted, times in *. cbn [combine map dot fst snd]. rewrite IH. ring.
Qed.
Lemma point_raised : forall nu mu g1 nu2 mu2 g t, length nu = length g1 -> length mu = length g1 ->
    Forall2 Qeq nu2 (lifted nu mu g1) -> Forall2 Qeq mu2 (map (Qmult t) mu) ->
    (penalty_value nu2 mu2 g == penalty_value nu mu g + (dot mu (times g1 g) + (1 # 2) * (t - 1) * dot mu (sq g)))%Q.
Proof.
  intros nu mu g1 nu2 mu2 g t L1 L2 Hn Hm. rewrite (point_scaled _ nu2 mu mu2 g t Hn Hm). unfold penalty_value. rewrite dot_lifted by assumption. ring.
Qed.
Lemma times_self : forall g, times g g = sq g.
Proof. induction g as [|x g IH]; [reflexivity|]. unfold times, sq in *. cbn. rewrite IH. reflexivity. Qed.
Lemma point_square : forall mu g1 g2 a b, Forall (fun m => 0 <= m)%Q mu -> length g1 = length g2 ->
    (0 <= a * a * dot mu (sq g1) + (2 * a * b * dot mu (times g1 g2) + b * b * dot mu (sq g2)))%Q.
Proof.
  intros mu. induction mu as [|m mu IH]; intros g1 g2 a b Hm L; [cbn; lra|]. inversion Hm as [|? ? H1 H2]; subst.
  destruct g1 as [|x g1]; destruct g2 as [|y g2]; try discriminate; [cbn; lra|].
  specialize (IH g1 g2 a b H2 ltac:(cbn in L; lia)). unfold sq, times in *. cbn [combine map dot fst snd].
  assert (S : (0 <= m * ((a * x + b * y) * (a * x + b * y)))%Q) by (apply Qmult_le_0_compat; [exact H1|]; generalize (a * x + b * y)%Q; intros z; nra).
  set (d1 := dot mu (map (fun x => x * x)%Q g1)) in *. set (d2 := dot mu (map (fun x => x * x)%Q g2)) in *.
  set (d3 := dot mu (map (fun xy => fst xy * snd xy)%Q (combine g1 g2))) in *.
  match goal with |- (0 <= ?z)%Q => assert (E : (z == m * ((a * x + b * y) * (a * x + b * y)) +
     (a * a * d1 + (2 * a * b * d3 + b * b * d2)))%Q) by ring end.
  rewrite E. apply (Qle_trans _ (0 + 0)); [discriminate|]. apply Qplus_le_compat; assumption.
Qed.

Section Passes.
  Variables (F : nat -> Q -> Q) (same : expr -> expr -> bool) (points : nat -> list Q) (dfun : nat -> expr -> expr)
    (opts : al_options) (rq : request) (o : ocp) (c : sym) (rx : relaxing)
    (k : method) (c0 : sym) (nl : nlp) (s : par_syms) (r : traj sym) (x_c x_c0 first : sym) (l v w : expr) (b : list Q).
  Let o' := rx_problem rx.
  Let vidx := freed o rq.
  Let N := k_elements k.
  Let pts := points (k_degree k).
  Let upts := points (k_degree_control k).
  Let g := rx_alg rx ++ rx_eq rx.
  Hypothesis HF : respects F.
  Hypothesis HR : relaxation same points opts rq o c rx.
  Hypothesis HD : direct_setting points dfun k c0 nl s r o' x_c x_c0 first.
  Hypothesis Hdeg : al_degree opts = k_degree k.
  Hypothesis El : o_L o = [l].
  Hypothesis Ev : o_V o = [v].
  Hypothesis Ew : o_S o = [w].
  Hypothesis Hb : exact_rule pts b.
  Hypothesis Hpos : o_positive o = false.
  Hypothesis Hd : vidx = [] \/ k_degree_control k = k_degree k.

  Notation U := (fun q c1 => user_cost F o N q c1 v l w pts b).
  Notation eqs := (equations_at F rx N).
  Notation mus := (weights_at rx N).
  Notation nus := (multipliers_at F rx N).

  Lemma p_charged : forall q' c', penalty_total F o' N q' c' (rx_nu_pol rx) (rx_mu_sym rx) g pts b =
      charged F rx N pts b (nus q' c') (mus q' c') q' c'.
  Proof. reflexivity. Qed.

  (** Not decided: the new parameters. *)
  Lemma p_parameters : forall q1 q2, fits k pts q1 -> fits k pts q2 -> same_data o' N q1 q2 ->
      forall c1 c2 el tau, el < N -> In tau pts -> Forall2 Qeq (nus q2 c2 el tau) (nus q1 c1 el tau) /\ Forall2 Qeq (mus q2 c2 el tau) (mus q1 c1 el tau).
  Proof.
    intros q1 q2 H1 H2 SD c1 c2 el tau Hel Ht.
    pose proof (t_loosened F same points opts rq o c rx HR) as HL. fold o' in HL.
    destruct (lo_variables _ _ _ _ _ _ _ _ _ HL) as [y [_ [_ [_ [Ep Eth]]]]].
    destruct (lo_same _ _ _ _ _ _ _ _ _ HL) as [_ [E2 _]]. injection E2 as _ _ _ Epo Eto.
    pose proof (t_sizes F same points dfun opts rq o c rx k c0 nl s r x_c x_c0 first HF HR HD q1 H1) as Z1. fold o' N upts in Z1. destruct Z1 as [Zp1 [Zt1 _]].
    pose proof (t_sizes F same points dfun opts rq o c rx k c0 nl s r x_c x_c0 first HF HR HD q2 H2) as Z2. fold o' N upts in Z2. destruct Z2 as [Zp2 [Zt2 _]].
    pose proof (t_symbols points dfun rx k c0 nl s r x_c x_c0 first HD) as ND. fold o' in ND. 
    destruct (blocks_distinct F (wanted o rq) vidx (rq_equalities rq) _ _ _ o o' HL ND) as [NDp NDt].
    destruct (rl_own _ _ _ (re_able _ _ _ _ _ _ _ HR)) as [Op Ot].
    split.
    - apply In_nth_error in Ht. destruct Ht as [j Hj]. unfold multipliers_at. fold o'.
      apply Forall2_nth_intro; [rewrite !map_length; reflexivity|]. intros i x z Hx Hz.
      rewrite nth_error_map in Hx, Hz. destruct (nth_error (rx_nu_pol rx) i) as [e|] eqn:Ee; [|discriminate].
      injection Hx as <-. injection Hz as <-.
      pose proof (u_multiplier F same points dfun opts rq o c rx k c0 nl s r x_c x_c0 first HF HR HD Hdeg q2 c2 H2 el j tau i e Hel Hj Ee) as V2.
      pose proof (u_multiplier F same points dfun opts rq o c rx k c0 nl s r x_c x_c0 first HF HR HD Hdeg q1 c1 H1 el j tau i e Hel Hj Ee) as V1.
      fold o' N g in V1, V2. rewrite V1, V2. set (n := length (m_theta (o_model o)) + (j * length g + i)).
      assert (En : nth_error (q_theta q2 el) n = nth_error (q_theta q1 el) n).
      { destruct (nth_error (m_theta (o_model o')) n) as [u|] eqn:Eu.
        - apply (sd_theta _ _ _ _ SD el n u Hel Eu). rewrite Eto. intros Hin. apply Ot in Hin.
          rewrite Eth in Eu. assert (Hge : length (m_theta (o_model o)) <= n) by (unfold n; lia).
          rewrite nth_error_app2 in Eu by exact Hge. apply nth_error_In in Eu.
          exact (NoDup_app_disjoint _ _ _ u NDt Hin Eu).
        - apply nth_error_None in Eu. rewrite (proj2 (nth_error_None _ _)) by (rewrite (Zt2 el Hel); exact Eu).
          rewrite (proj2 (nth_error_None _ _)) by (rewrite (Zt1 el Hel); exact Eu). reflexivity. }
      destruct (nth_error (q_theta q1 el) n) as [x|] eqn:Ex.
      + rewrite (nth_error_nth _ _ _ En), (nth_error_nth _ _ _ Ex). reflexivity.
      + apply nth_error_None in En. apply nth_error_None in Ex. rewrite !nth_overflow by assumption. reflexivity.
    - pose proof (u_weights F same points dfun opts rq o c rx k c0 nl s r x_c x_c0 first HF HR HD Hdeg q2 c2 H2 el tau Hel) as V2.
      pose proof (u_weights F same points dfun opts rq o c rx k c0 nl s r x_c x_c0 first HF HR HD Hdeg q1 c1 H1 el tau Hel) as V1.
      fold N in V1, V2. rewrite V1, V2.
      apply Forall2_nth_intro; [rewrite !skipn_length, Zp1, Zp2; reflexivity|]. intros i x z Hx Hz.
      rewrite skipn_entry in Hx, Hz. set (n := length (m_p (o_model o)) + i) in *.
      assert (Hn : n < length (m_p (o_model o'))) by (rewrite <- Zp1; apply nth_error_Some; congruence).
      destruct (nth_error (m_p (o_model o')) n) as [u|] eqn:Eu; [|apply nth_error_None in Eu; lia].
      assert (En : nth_error (q_p q2) n = nth_error (q_p q1) n).
      { apply (sd_p _ _ _ _ SD n u Eu). rewrite Epo. intros Hin. apply Op in Hin. rewrite Ep in Eu.
        rewrite nth_error_app2 in Eu by (unfold n; lia). apply nth_error_In in Eu. exact (NoDup_app_disjoint _ _ _ u NDp Hin Eu). }
      rewrite En in Hx. assert (x = z) by congruence. subst x. reflexivity.
  Qed.

  Lemma p_compared : exists e, nf nl = [e] /\
      forall env1 q1' c1' q1 c1 env2 q2' c2' q2 c2,
        pass F points o rq rx k nl s r e env1 q1' c1' q1 c1 -> pass F points o rq rx k nl s r e env2 q2' c2' q2 c2 -> same_data o N q1 q2 ->
        let nu := nus q1' c1' in let mu := mus q1' c1' in
        (U q1 c1 + charged F rx N pts b nu mu q1' c1' <= U q2 c2 + charged F rx N pts b nu mu q2' c2')%Q.
  Proof.
    destruct (t_cost F same points dfun opts rq o c rx k c0 nl s r x_c x_c0 first HF HR HD l v w b El Ev Ew) as [l' [El' [Ev' [Ew' Hcost]]]].
    pose proof (t_loosened F same points opts rq o c rx HR) as HL. fold o' in HL.
    assert (Hpos' : o_positive o' = false) by (destruct (lo_same _ _ _ _ _ _ _ _ _ HL) as [_ [_ [_ [_ ->]]]]; exact Hpos).
    destruct (w_C67_optimal F points dfun k c0 nl s r o' x_c x_c0 first l' v w b HF HD El' Ev' Ew' Hb Hpos') as [e [Ee He]].
    exists e. split; [exact Ee|]. intros env1 q1' c1' q1 c1 env2 q2' c2' q2 c2 [D1 F1 G1 M1 S1 Sh1 Us1] [D2 F2 G2 M2 S2 Sh2 Us2] SD nu mu.
    fold o' vidx N pts upts in D1, F1, S1, Sh1, Us1, D2, F2, S2, Sh2, Us2.
    destruct (He env1 q1' c1' D1 F1 G1 M1) as [_ [_ M]]. destruct (He env2 q2' c2' D2 F2 G2 M2) as [U2 [W2 _]].
    destruct (t_lift F same points dfun opts rq o c rx k c0 nl s r x_c x_c0 first HF HR HD env1 q1' c1' q1 c1 q2 c2 Hd D1 S1 Sh2 Us2 SD) as [q3 [c3 [Z3 [S3 [F3 SD3]]]]].
    fold o' vidx N pts upts in Z3, S3, F3, SD3.
    pose proof (t_fits F points dfun rx k c0 nl s r x_c x_c0 first HF HD env1 q1' D1) as Fit1.
    pose proof (t_fits F points dfun rx k c0 nl s r x_c x_c0 first HF HD env2 q2' D2) as Fit2.
    assert (Fit3 : fits k pts q3) by exact (sized_fits points k q3 Z3). fold pts in Fit1, Fit2.
    pose proof (t_sizes F same points dfun opts rq o c rx k c0 nl s r x_c x_c0 first HF HR HD q2' Fit2) as T2. fold o' N upts in T2. destruct T2 as [T2a [T2b [T2c _]]].
    pose proof (t_sizes F same points dfun opts rq o c rx k c0 nl s r x_c x_c0 first HF HR HD q3 Fit3) as T3. fold o' N upts in T3. destruct T3 as [T3a [T3b [T3c _]]].
    pose proof (t_symbols points dfun rx k c0 nl s r x_c x_c0 first HD) as Tsym. fold o' in Tsym.
    pose proof (t_names same points opts rq o c rx HR) as Tnames.
    pose proof (t_elements F points dfun rx k c0 nl s r x_c x_c0 first HF HD) as TN. fold N in TN.
    pose proof (t_x0 F same points dfun opts rq o c rx k c0 nl s r x_c x_c0 first HR HD) as Tx0.
    pose proof (t_fresh F same points opts rq o c rx k HR) as Tfresh.
    pose proof (t_ode F same points dfun opts rq o c rx k c0 nl s r x_c x_c0 first HR HD) as Tode.
    destruct (re_able _ _ _ _ _ _ _ HR) as [R1 R2 R3 R4 R5 R6 [R7 R7'] R8 R9 R10].
    assert (U3 : user_collocated F o' N q3 c3 pts).
    { apply (moved_collocated F (wanted o rq) vidx (rq_equalities rq) _ _ _ o o' N HL Tsym Tnames TN Tx0 Tfresh Tode R3 R2 R8 R6
        q2 c2 q2' c2' q3 c3 S2 S3 (conj T2a (conj T2b T2c)) (conj T3a (conj T3b T3c)) pts U2). }
    assert (W3 : user_within o' N q3 c3 upts pts).
    { apply (proj2 (t_same F same points dfun opts rq o c rx k c0 nl s r x_c x_c0 first HF HR HD q2 c2 q3 c3 Fit3 S3) Hd).
      apply (proj2 (t_same F same points dfun opts rq o c rx k c0 nl s r x_c x_c0 first HF HR HD q2 c2 q2' c2' Fit2 S2) Hd). exact W2. }
    pose proof (M q3 c3 Z3 F3 SD3 U3 W3) as C. fold o' N pts in C.
    pose proof (Hcost q1 c1 q1' c1' Fit1 S1) as E1. pose proof (Hcost q2 c2 q3 c3 Fit3 S3) as E3. fold o' N pts g in E1, E3.
    rewrite p_charged in E1, E3.
    assert (E : (charged F rx N pts b (nus q3 c3) (mus q3 c3) q3 c3 == charged F rx N pts b nu mu q2' c2')%Q).
    { apply int_ext. intros el tau Hel Ht. destruct (p_parameters q1' q3 Fit1 Fit3 SD3 c1' c3 el tau Hel Ht) as [P1 P2].
      rewrite (point_same _ _ _ _ _ P1 P2). fold nu mu. f_equiv.
      assert (Eg : eqs q3 c3 el tau = eqs q2' c2' el tau); [|rewrite Eg; reflexivity].
      unfold equations_at. apply map_ext_in. intros e0 He0.
      apply (moved_eval F (wanted o rq) vidx (rq_equalities rq) _ _ _ o o' N HL Tsym Tnames TN Tx0 Tfresh Tode
        q2 c2 q2' c2' q3 c3 S2 S3 (conj T2a (conj T2b T2c)) (conj T3a (conj T3b T3c)) el tau e0 Hel).
      exact (u_written F same points opts rq o c rx HR e0 He0). }
    fold nu mu in E1. cbv beta. lra.
  Qed.

  Lemma p_sizes : forall q c1 el tau, length (nus q c1 el tau) = length (eqs q c1 el tau) /\ length (mus q c1 el tau) = length (eqs q c1 el tau).
  Proof.
    intros q c1 el tau. pose proof (u_relaxes F same points opts rq o c rx k HR Hdeg) as R.
    unfold multipliers_at, weights_at, equations_at. rewrite !map_length. split; [exact (re_pol _ _ _ _ _ _ R)|exact (re_weights _ _ _ _ _ _ R)].
  Qed.
  Notation ch := (charged F rx N pts b).
  Notation viol := (violation F rx N pts b).
  Notation cross := (crossed F rx N pts b).

  Lemma p_scaled : forall nu nu2 mu mu2 t q c1, everywhere N pts nu nu2 -> everywhere N pts (fun el tau => map (Qmult t) (mu el tau)) mu2 ->
      (ch nu2 mu2 q c1 == ch nu mu q c1 + (1 # 2) * (t - 1) * viol mu q c1)%Q.
  Proof.
    intros nu nu2 mu mu2 t q c1 Hn Hm. unfold charged, violation. rewrite <- int_scale, <- int_plus. apply int_ext. intros el tau Hel Ht.
    exact (point_scaled _ _ _ _ _ t (Hn el tau Hel Ht) (Hm el tau Hel Ht)).
  Qed.
  Lemma p_raised : forall q1 c1 nu2 mu2 t q c2, everywhere N pts (raised F rx N q1 c1) nu2 ->
      everywhere N pts (fun el tau => map (Qmult t) (mus q1 c1 el tau)) mu2 ->
      (ch nu2 mu2 q c2 == ch (nus q1 c1) (mus q1 c1) q c2 + (cross (mus q1 c1) q1 c1 q c2 + (1 # 2) * (t - 1) * viol (mus q1 c1) q c2))%Q.
  Proof.
    intros q1 c1 nu2 mu2 t q c2 Hn Hm. unfold charged, violation, crossed. rewrite <- int_scale, <- int_plus, <- int_plus. apply int_ext.
    intros el tau Hel Ht. destruct (p_sizes q1 c1 el tau) as [L1 L2].
    exact (point_raised _ _ _ _ _ _ t L1 L2 (Hn el tau Hel Ht) (Hm el tau Hel Ht)).
  Qed.
  Lemma p_self : forall mu q c1, (cross mu q c1 q c1 == viol mu q c1)%Q.
  Proof.
    intros mu q c1. apply int_ext. intros el tau _ _. pose proof (times_self (eqs q c1 el tau)) as E. unfold times, sq in E. rewrite E. reflexivity.
  Qed.
  Lemma p_split : forall nu mu q c1, (ch nu mu q c1 == multiplied_total F rx N q c1 nu pts b + (1 # 2) * viol mu q c1)%Q.
  Proof.
    intros nu mu q c1. change (multiplied_total F rx N q c1 nu pts b) with (integrated rx N pts b (fun el tau => dot (nu el tau) (eqs q c1 el tau))).
    unfold charged, violation. rewrite <- int_scale, <- int_plus. apply int_ext. intros el tau _ _. reflexivity.
  Qed.
  Lemma same_data_back : forall q1 q2, same_data o N q1 q2 -> same_data o N q2 q1.
  Proof.
    intros q1 q2 [A1 A2 A3 A4]. constructor; [congruence|congruence| |].
    - intros i u Hi Hu. symmetry. exact (A3 i u Hi Hu).
    - intros el i u Hel Hi Hu. symmetry. exact (A4 el i u Hel Hi Hu).
  Qed.
  Lemma p_step : (0 <= user_step o' N)%Q.
  Proof.
    pose proof (t_elements F points dfun rx k c0 nl s r x_c x_c0 first HF HD) as TN. fold N in TN.
    pose proof (t_horizon F points dfun rx k c0 nl s r x_c x_c0 first HF HD) as TH. fold o' in TH.
    assert (HQ : (0 < inject_Z (Z.of_nat N))%Q) by (change 0%Q with (inject_Z 0); rewrite <- Zlt_Qlt; lia).
    unfold user_step. apply Qle_shift_div_l; [exact HQ|]. lra.
  Qed.
  Lemma p_square : forall mu q1 c1 q2 c2 a a2, Forall (fun x => 0 <= x)%Q b ->
      (forall el tau, el < N -> In tau pts -> Forall (fun m => 0 <= m)%Q (mu el tau)) ->
      (0 <= a * a * viol mu q1 c1 + (2 * a * a2 * cross mu q1 c1 q2 c2 + a2 * a2 * viol mu q2 c2))%Q.
  Proof.
    intros mu q1 c1 q2 c2 a a2 Hnn Hm. unfold violation, crossed. rewrite <- !int_scale, <- !int_plus. apply int_nonneg; [exact p_step|exact Hnn|].
    intros el tau Hel Ht. apply point_square; [exact (Hm el tau Hel Ht)|]. unfold equations_at. rewrite !map_length. reflexivity.
  Qed.

  (** Both comparisons at once. *)
  Lemma p_both : exists e, nf nl = [e] /\
      forall env1 q1' c1' q1 c1 env2 q2' c2' q2 c2,
        pass F points o rq rx k nl s r e env1 q1' c1' q1 c1 -> pass F points o rq rx k nl s r e env2 q2' c2' q2 c2 -> same_data o N q1 q2 ->
        (U q1 c1 + ch (nus q1' c1') (mus q1' c1') q1' c1' <= U q2 c2 + ch (nus q1' c1') (mus q1' c1') q2' c2')%Q /\
        (U q2 c2 + ch (nus q2' c2') (mus q2' c2') q2' c2' <= U q1 c1 + ch (nus q2' c2') (mus q2' c2') q1' c1')%Q.
  Proof.
    destruct p_compared as [e [Ee H]]. exists e. split; [exact Ee|]. intros env1 q1' c1' q1 c1 env2 q2' c2' q2 c2 P1 P2 SD.
    split; [exact (H _ _ _ _ _ _ _ _ _ _ P1 P2 SD)|exact (H _ _ _ _ _ _ _ _ _ _ P2 P1 (same_data_back _ _ SD))].
  Qed.

  Lemma p_updated : exists e l', nf nl = [e] /\ o_L o' = [l'] /\
      forall env1 q1' c1' q1 c1 env2 q2' c2' q2 c2,
        pass F points o rq rx k nl s r e env1 q1' c1' q1 c1 -> pass F points o rq rx k nl s r e env2 q2' c2' q2 c2 -> same_data o N q1 q2 ->
        everywhere N pts (raised F rx N q1' c1') (nus q2' c2') -> everywhere N pts (mus q1' c1') (mus q2' c2') ->
        let D := fun q c1 => user_cost F o' N q c1 v l' w pts b in
        (D q1' c1' + cross (mus q1' c1') q1' c1' q2' c2' <= D q2' c2')%Q /\ (D q2' c2' <= D q1' c1' + viol (mus q1' c1') q1' c1')%Q.
  Proof.
    destruct p_both as [e [Ee H]].
    destruct (t_cost F same points dfun opts rq o c rx k c0 nl s r x_c x_c0 first HF HR HD l v w b El Ev Ew) as [l' [El' [_ [_ Hcost]]]].
    exists e, l'. split; [exact Ee|]. split; [exact El'|]. intros env1 q1' c1' q1 c1 env2 q2' c2' q2 c2 P1 P2 SD Hn Hm D.
    destruct (H _ _ _ _ _ _ _ _ _ _ P1 P2 SD) as [A B].
    pose proof (t_fits F points dfun rx k c0 nl s r x_c x_c0 first HF HD env1 q1' (pa_describes _ _ _ _ _ _ _ _ _ _ _ _ _ _ _ P1)) as Fit1.
    pose proof (t_fits F points dfun rx k c0 nl s r x_c x_c0 first HF HD env2 q2' (pa_describes _ _ _ _ _ _ _ _ _ _ _ _ _ _ _ P2)) as Fit2.
    pose proof (Hcost q1 c1 q1' c1' Fit1 (pa_same _ _ _ _ _ _ _ _ _ _ _ _ _ _ _ P1)) as E1.
    pose proof (Hcost q2 c2 q2' c2' Fit2 (pa_same _ _ _ _ _ _ _ _ _ _ _ _ _ _ _ P2)) as E2.
    fold o' N pts g in E1, E2. rewrite p_charged in E1, E2. fold (D q1' c1') in E1. fold (D q2' c2') in E2.
    assert (Hm' : everywhere N pts (fun el tau => map (Qmult 1) (mus q1' c1' el tau)) (mus q2' c2')).
    { intros el tau Hel Ht. specialize (Hm el tau Hel Ht). clear -Hm. induction Hm as [|x y a b Hx Hm IH]; [constructor|]. cbn [map]. constructor; [|exact IH].
      rewrite Hx. ring. }
    pose proof (p_raised q1' c1' _ _ 1 q1' c1' Hn Hm') as X1. pose proof (p_raised q1' c1' _ _ 1 q2' c2' Hn Hm') as X2.
    rewrite p_self in X1. cbv beta in A, B.
    set (S1 := viol (mus q1' c1') q1' c1') in *. set (S2 := viol (mus q1' c1') q2' c2') in *.
    split; lra.
  Qed.

  Lemma p_weights : exists e, nf nl = [e] /\
      forall env1 q1' c1' q1 c1 env2 q2' c2' q2 c2 t,
        pass F points o rq rx k nl s r e env1 q1' c1' q1 c1 -> pass F points o rq rx k nl s r e env2 q2' c2' q2 c2 -> same_data o N q1 q2 ->
        everywhere N pts (nus q1' c1') (nus q2' c2') -> (1 < t)%Q ->
        everywhere N pts (fun el tau => map (Qmult t) (mus q1' c1' el tau)) (mus q2' c2') ->
        let nu := nus q1' c1' in let mu := mus q1' c1' in
        (viol mu q2' c2' <= viol mu q1' c1')%Q /\
        (U q1 c1 + multiplied_total F rx N q1' c1' nu pts b <= U q2 c2 + multiplied_total F rx N q2' c2' nu pts b)%Q.
  Proof.
    destruct p_both as [e [Ee H]]. exists e. split; [exact Ee|]. intros env1 q1' c1' q1 c1 env2 q2' c2' q2 c2 t P1 P2 SD Hn Ht Hm nu mu.
    destruct (H _ _ _ _ _ _ _ _ _ _ P1 P2 SD) as [A B].
    pose proof (p_scaled _ _ _ _ t q1' c1' Hn Hm) as X1. pose proof (p_scaled _ _ _ _ t q2' c2' Hn Hm) as X2.
    pose proof (p_split nu mu q1' c1') as Y1. pose proof (p_split nu mu q2' c2') as Y2. fold nu mu in A, X1, X2. cbv beta in A, B |- *.
    set (S1 := viol mu q1' c1') in *. set (S2 := viol mu q2' c2') in *.
    assert (L : ((t - 1) * S2 <= (t - 1) * S1)%Q) by lra.
    assert (V : (S2 <= S1)%Q) by (apply (Qmult_le_l _ _ (t - 1)); [lra|exact L]).
    split; [exact V|lra].
  Qed.

  Lemma p_violation : Forall (fun x => 0 <= x)%Q b -> exists e, nf nl = [e] /\
      forall env1 q1' c1' q1 c1 env2 q2' c2' q2 c2 t,
        pass F points o rq rx k nl s r e env1 q1' c1' q1 c1 -> pass F points o rq rx k nl s r e env2 q2' c2' q2 c2 -> same_data o N q1 q2 ->
        everywhere N pts (raised F rx N q1' c1') (nus q2' c2') -> (1 < t)%Q ->
        everywhere N pts (fun el tau => map (Qmult t) (mus q1' c1' el tau)) (mus q2' c2') ->
        (forall el tau, el < N -> In tau pts -> Forall (fun m => 0 <= m)%Q (mus q1' c1' el tau)) ->
        let mu := mus q1' c1' in
        ((t - 1) * (t - 1) * viol mu q2' c2' <= (t + 1) * (t + 1) * viol mu q1' c1')%Q.
  Proof.
    intros Hnn. destruct p_both as [e [Ee H]]. exists e. split; [exact Ee|]. intros env1 q1' c1' q1 c1 env2 q2' c2' q2 c2 t P1 P2 SD Hn Ht Hm H0 mu.
    destruct (H _ _ _ _ _ _ _ _ _ _ P1 P2 SD) as [A B].
    pose proof (p_raised q1' c1' _ _ t q1' c1' Hn Hm) as X1. pose proof (p_raised q1' c1' _ _ t q2' c2' Hn Hm) as X2.
    rewrite p_self in X1. pose proof (p_square mu q1' c1' q2' c2' (t + 1)%Q (t - 1)%Q Hnn H0) as Sq.
    fold mu in A, X1, X2. cbv beta in A, B. set (S1 := viol mu q1' c1') in *. set (S2 := viol mu q2' c2') in *. set (X := cross mu q1' c1' q2' c2') in *.
    assert (K : (2 * X + (t - 1) * S2 <= (t + 1) * S1)%Q) by lra.
    apply (Qmult_le_l _ _ t); [lra|].
    assert (P : (0 <= (t + 1) * (t - 1))%Q) by (apply Qmult_le_0_compat; lra).
    assert (K2 : ((t + 1) * (t - 1) * (2 * X + (t - 1) * S2) <= (t + 1) * (t - 1) * ((t + 1) * S1))%Q) by (apply Qmult_le_l_nonneg; assumption).
    lra.
  Qed.
End Passes.

(** ** The pass after an update *)

Section Next.
  Variables (F : nat -> Q -> Q) (same : expr -> expr -> bool) (points : nat -> list Q) (dfun : nat -> expr -> expr)
    (opts : al_options) (rq : request) (o : ocp) (c : sym) (rx : relaxing)
    (k : method) (c0 : sym) (nl : nlp) (s : par_syms) (r : traj sym) (x_c x_c0 first : sym).
  Let o' := rx_problem rx.
  Let N := k_elements k.
  Let pts := points (k_degree k).
  Let upts := points (k_degree_control k).
  Let g := rx_alg rx ++ rx_eq rx.
  Hypothesis HF : respects F.
  Hypothesis HR : relaxation same points opts rq o c rx.
  Hypothesis HD : direct_setting points dfun k c0 nl s r o' x_c x_c0 first.
  Hypothesis Hdeg : al_degree opts = k_degree k.
  Hypothesis Hopt : o_p_opt o = [] /\ o_theta_opt o = [].
  Hypothesis Hnew : forall e v, In e (written o) -> In v (x_c :: x_c0 :: m_u_par (k_model k)) -> ~ mentions e v.
  Variable vars : list sym.
  Hypothesis Hvars : NoDup vars.
  Let a := mkAugmented k vars (rx_alg rx) (rx_eq rx) (rx_mu_sym rx) (rx_nu_pol rx).

  Lemma n_next : forall st p th tr q1 c1, fitting a (m_p (o_model o)) (m_theta (o_model o)) st p th -> collocation_shape k tr ->
      reads k pts tr (given_p p ++ st_mu st) (fun el => given_in th el ++ nu_in st el) q1 -> followed o' N upts q1 c1 ->
      al_skip_compute opts = false -> al_skip_nu opts = false -> al_improve opts = false \/ st_last st = None ->
      al_skip_mu opts = false -> al_rule opts = "bounded-increase"%string ->
      Forall (fun m => m * al_beta opts <= al_mu_max opts)%Q (st_mu st) ->
      forall st' errors, update_parameters F opts (create_nu_update_func points a) N p th (flatten tr) st = (st', Ok errors) ->
      let st2 := take_nu_tilde st' in
      forall tr2 q2 c2, collocation_shape k tr2 ->
        reads k pts tr2 (given_p p ++ st_mu st2) (fun el => given_in th el ++ nu_in st2 el) q2 ->
        everywhere N pts (raised F rx N q1 c1) (multipliers_at F rx N q2 c2) /\
        everywhere N pts (fun el tau => map (Qmult (al_beta opts)) (weights_at rx N q1 c1 el tau)) (weights_at rx N q2 c2).
  Proof.
    intros st p th tr q1 c1 Fi Sh Rd Hf S1 S2 S3 S4 S5 Hmax st' errors Hup st2 tr2 q2 c2 Sh2 Rd2.
    pose proof (u_reads_fit F same points dfun opts rq o c rx k c0 nl s r x_c x_c0 first HR HD Hdeg Hopt vars Hvars st p th tr q1 Fi Sh Rd) as Fit1.
    pose proof (u_carries F same points dfun opts rq o c rx k c0 nl s r x_c x_c0 first HR HD Hdeg Hopt vars Hvars) as Ca.
    destruct (updated_multipliers F points opts a _ _ HF (ds_transcribable _ _ _ _ _ _ _ _ _ _ _ HD)
      (ds_points _ _ _ _ _ _ _ _ _ _ _ HD) Ca st p th tr q1 Fi Sh Rd S1 st' errors Hup S2 S3) as [d [Ed [[_ [Md _]] _]]].
    destruct (u_update F same points dfun opts rq o c rx k c0 nl s r x_c x_c0 first HF HR HD Hdeg Hopt Hnew vars Hvars st p th tr q1 c1 Fi Sh Rd Hf S1 S2 S3 st' errors Hup)
      as [d2 [Ed2 Hr]]. rewrite Ed in Ed2. injection Ed2 as <-. clear Ed2 || idtac. fold N pts in Hr.
    change (relaxed_count _) with (length g) in Hr.
    pose proof (increased_weights _ _ _ _ _ _ _ _ _ _ Hup S4 S5) as Emu.
    assert (Enu : st_nu st2 = d) by (unfold st2; exact (take_of _ _ Ed)).
    assert (Emu2 : st_mu st2 = map (fun m => fmin (al_mu_max opts) (m * al_beta opts)%Q) (st_mu st)).
    { rewrite <- Emu. unfold st2, take_nu_tilde. destruct (st_nu_tilde st'); reflexivity. }
    destruct Fi as [G1 G2 G3 G4]. change (ag_method a) with k in *. change (relaxed_count a) with (length g) in *.
    assert (Fi2 : fitting a (m_p (o_model o)) (m_theta (o_model o)) st2 p th).
    { constructor; [exact G1|rewrite Emu2, map_length; exact G2|exact G3|]. rewrite Enu. exact Md. }
    pose proof (u_reads_fit F same points dfun opts rq o c rx k c0 nl s r x_c x_c0 first HR HD Hdeg Hopt vars Hvars st2 p th tr2 q2 Fi2 Sh2 Rd2) as Fit2.
    fold pts in Fit1, Fit2.
    pose proof (u_relaxes F same points opts rq o c rx k HR Hdeg) as R. split; intros el tau Hel Ht.
    - apply In_nth_error in Ht. destruct Ht as [j Hj].
      apply Forall2_nth_intro.
      { unfold raised, multipliers_at, weights_at, equations_at. rewrite !map_length, !combine_length, !map_length.
        rewrite (re_pol _ _ _ _ _ _ R), (re_weights _ _ _ _ _ _ R). lia. }
      intros i y x Hy Hx. destruct (Hr el j tau i x Hel Hj Hx) as [z [Ez Vz]].
      unfold multipliers_at in Hy. rewrite nth_error_map in Hy. destruct (nth_error (rx_nu_pol rx) i) as [e|] eqn:Ee; [|discriminate].
      injection Hy as <-.
      pose proof (u_multiplier F same points dfun opts rq o c rx k c0 nl s r x_c x_c0 first HF HR HD Hdeg q2 c2 Fit2 el j tau i e Hel Hj Ee) as V.
      fold N in V. rewrite V, <- Vz. rewrite (rd_theta _ _ _ _ _ _ Rd2 el Hel). rewrite <- (G3 el Hel), app_nth2_plus.
      unfold nu_in. rewrite Enu. unfold multiplier in Ez. fold g. destruct (dget Nat.eqb el d) as [vv|]; [|discriminate].
      rewrite (nth_error_nth _ _ 0%Q Ez). reflexivity.
    - pose proof (u_weights F same points dfun opts rq o c rx k c0 nl s r x_c x_c0 first HF HR HD Hdeg q1 c1 Fit1 el tau Hel) as V1.
      pose proof (u_weights F same points dfun opts rq o c rx k c0 nl s r x_c x_c0 first HF HR HD Hdeg q2 c2 Fit2 el tau Hel) as V2.
      fold N in V1, V2. rewrite V1, V2, (rd_p _ _ _ _ _ _ Rd), (rd_p _ _ _ _ _ _ Rd2), <- G1.
      rewrite !skipn_app, !Nat.sub_diag, skipn_all2 by lia. cbn [app skipn]. rewrite Emu2. clear -Hmax.
      induction Hmax as [|m l Hm Hmax IH]; [constructor|]. cbn [map]. constructor; [|exact IH].
      rewrite fmin_min, Q.min_r by exact Hm. ring.
  Qed.
End Next.

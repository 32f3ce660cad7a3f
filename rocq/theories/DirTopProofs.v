(** Proofs about the direct method: from the problem of the user to the nonlinear program. *)
From Coq Require Import String Qabs Lqa Sorted Setoid.
From Verif Require Import Base BaseProofs UtilModel ExprModel ExprProofs NlpModel NlpSpec SysModel SysSpec SysProofs
  OcpModel OcpSpec SimModel LagModel LagSpec LagProofs DiscModel DiscSpec DiscProofs ColSpec ColEvalProofs DirQuadProofs ColPolyProofs
  ColElementProofs ColMainProofs ColTopProofs DirSpec DirProofs DirColProofs.
Local Open Scope list_scope.
Local Open Scope nat_scope.

Lemma ext_le_compat : forall lo hi a b, (a == b)%Q ->
    (ext_le lo (Fin a) /\ ext_le (Fin a) hi <-> ext_le lo (Fin b) /\ ext_le (Fin b) hi).
Proof.
  intros lo hi a b E. destruct lo, hi; cbn [ext_le]; rewrite ?E; tauto.
Qed.
Lemma grid_has : forall (A : Type) n d m (l : list (list (list A))) el j i, grid n d m l -> el < n -> j < d -> i < m ->
    exists v, entry l el j i = Some v.
Proof.
  intros A n d m l el j i [L R] Hel Hj Hi. rewrite Forall_forall in R. unfold entry.
  destruct (nth_error l el) as [r|] eqn:Er; [|apply nth_error_None in Er; lia].
  destruct (R r (nth_error_In _ _ Er)) as [L2 R2]. rewrite Forall_forall in R2.
  destruct (nth_error r j) as [v|] eqn:Ev; [|apply nth_error_None in Ev; lia].
  destruct (nth_error v i) as [x|] eqn:Ex; [exists x; reflexivity|].
  apply nth_error_None in Ex. rewrite (R2 v (nth_error_In _ _ Ev)) in Ex. lia.
Qed.
Lemma grid_inside : forall (A : Type) n d m (l : list (list (list A))) el j i v, grid n d m l -> entry l el j i = Some v ->
    el < n /\ j < d /\ i < m.
Proof.
  intros A n d m l el j i v [L R] E. unfold entry in E. rewrite Forall_forall in R.
  destruct (nth_error l el) as [r|] eqn:Er; [|discriminate].
  destruct (nth_error r j) as [w|] eqn:Ew; [|discriminate]. destruct (R r (nth_error_In _ _ Er)) as [L2 R2]. rewrite Forall_forall in R2.
  split; [rewrite <- L; apply nth_error_Some; congruence|]. split; [rewrite <- L2; apply nth_error_Some; congruence|].
  rewrite <- (R2 w (nth_error_In _ _ Ew)). apply nth_error_Some. congruence.
Qed.
Lemma entry_In : forall (A : Type) (l : list (list (list A))) el j i v, entry l el j i = Some v -> In v (concat (concat l)).
Proof.
  intros A l el j i v E. unfold entry in E. destruct (nth_error l el) as [r|] eqn:Er; [|discriminate].
  destruct (nth_error r j) as [w|] eqn:Ew; [|discriminate]. apply in_concat. exists w. split; [|exact (nth_error_In _ _ E)].
  apply in_concat. exists r. split; [exact (nth_error_In _ _ Er) | exact (nth_error_In _ _ Ew)].
Qed.

Section Top.
  Variables (F : nat -> Q -> Q) (points : nat -> list Q) (dfun : nat -> expr -> expr) (k : method) (c0 : sym)
    (nl : nlp) (s : par_syms) (r : traj sym) (o : ocp) (x_c x_c0 first : sym).
  Let pts := points (k_degree k).
  Let upts := points (k_degree_control k).
  Let m := o_model o.
  Let n := length (m_x m).
  Hypothesis HF : respects F.
  Hypothesis HT : transcribable k.
  Hypothesis Hpts : collocation_points pts (k_degree k).
  Hypothesis Hdc : 0 < k_degree_control k.
  Hypothesis Hupts : collocation_points upts (k_degree_control k).
  Hypothesis Hprep : direct_prepare points (k_degree_control k) x_c x_c0 first o = (k_problem k, Ok tt).
  Hypothesis Hposed : posed o (x_c :: x_c0 :: m_u_par (k_model k)).
  Hypothesis Hcreate : create_optimization_problem (collocation_discretize points dfun k) k c0 = Ok (nl, s, r).
  Hypothesis Hdirect : k_direct k = true.

  Lemma d_pts : distinct pts.
  Proof. apply (distinct_tail 0%Q), sorted_distinct, Hpts. Qed.
  Lemma d_upts : distinct upts.
  Proof. apply (distinct_tail 0%Q), sorted_distinct, Hupts. Qed.
  Lemma is_prepared : prepared F upts x_c x_c0 o (k_problem k).
  Proof. apply (prepare_prepared F points (k_degree_control k) x_c x_c0 first); [exact HF | exact Hdc | apply Hupts | exact d_upts | exact Hprep]. Qed.
  Lemma ode_count : length (m_ode m) = n.
  Proof. destruct (po_equations _ _ Hposed) as [E _]. unfold n, m. rewrite <- E, map_length. reflexivity. Qed.
  Lemma whole : s = parameter_symbols k c0 /\ collocation_shape k r /\ k_elements k <> 0 /\ NoDup (all_mx s ++ flatten r).
  Proof.
    destruct (transcription F points dfun k c0 nl s r HF HT Hpts Hcreate) as [Es [Sh [HK [Ef _]]]].
    split; [exact Es|]. split; [exact Sh|]. split; [exact HK|]. rewrite Ef.
    assert (Ea : all_mx s = seq c0 (length (all_mx s))) by (rewrite Es, all_mx_seq, seq_length; reflexivity).
    rewrite Ea at 1. rewrite <- seq_app. apply seq_NoDup.
  Qed.
  Lemma some_elements : 0 < k_elements k.
  Proof. destruct whole as [_ [_ [H _]]]. lia. Qed.
  Lemma theta_given : forall el, el < k_elements k -> exists g d, nth_error (ps_theta s) el = Some g /\ nth_error (r_theta r) el = Some d.
  Proof.
    intros el Hel. destruct whole as [Es [Sh _]]. pose proof (theta_syms_rows k c0) as [L1 _]. rewrite <- Es in L1.
    destruct Sh as [_ [_ [_ [_ [_ [L2 _]]]]]].
    destruct (nth_error (ps_theta s) el) as [g|] eqn:Eg; [|apply nth_error_None in Eg; lia].
    destruct (nth_error (r_theta r) el) as [d|] eqn:Ed; [|apply nth_error_None in Ed; lia]. exists g, d. auto.
  Qed.
  Lemma controls_given : forall el, el < k_elements k -> exists l, nth_error (r_u r) el = Some l /\ rows (control_count k) (n_u k) l.
  Proof.
    intros el Hel. destruct whole as [_ [[_ [_ [[L R] _]]] _]]. rewrite Forall_forall in R.
    destruct (nth_error (r_u r) el) as [l|] eqn:E; [|apply nth_error_None in E; lia].
    exists l. split; [reflexivity | apply R, (nth_error_In _ _ E)].
  Qed.

  Lemma describes_fits : forall env q, describes k pts env s r q -> fits k pts q.
  Proof.
    intros env q D. destruct whole as [Es _]. constructor.
    - intros el i Hel Hi. apply (de_x _ _ _ _ _ _ D el i Hel Hi).
    - intros el Hel. destruct (controls_given el Hel) as [l [El R]]. rewrite (de_u _ _ _ _ _ _ D el l El), map_length, (rows_concat_length _ _ _ _ R).
      symmetry. apply (tr_controls _ HT).
    - apply (de_p _ _ _ _ _ _ D).
    - intros el Hel. destruct (theta_given el Hel) as [g [d [Eg Ed]]]. apply (de_theta _ _ _ _ _ _ D el g d Eg Ed).
    - rewrite (de_x0 _ _ _ _ _ _ D), map_length, Es. apply parameter_lengths.
  Qed.
  Lemma sized_fits : forall q, sized k pts q -> fits k pts q.
  Proof. intros q Z. destruct Z. constructor; auto. Qed.

  Theorem feasible_iff : forall env q c l, o_L o = [l] -> describes k pts env s r q -> followed o (k_elements k) upts q c ->
      (feasible F env nl <-> bounded k env r /\ user_collocated F o (k_elements k) q c pts /\
                            accumulates F o (k_elements k) q c n l pts).
  Proof.
    intros env q c l El D Hc. rewrite (w_C58_feasible F points dfun k c0 nl s r HF HT Hpts Hcreate env q D).
    pose proof (collocated_iff F pts upts x_c x_c0 o k q c is_prepared (po_symbols _ _ Hposed) (po_initial _ _ Hposed)
      (describes_fits env q D) some_elements Hc (po_new _ _ Hposed) l El ode_count) as I.
    fold pts. rewrite I. reflexivity.
  Qed.

  Theorem objective : forall l v w b, o_L o = [l] -> o_V o = [v] -> o_S o = [w] -> exact_rule pts b ->
      exists e, nf nl = [e] /\ forall env q c, describes k pts env s r q -> followed o (k_elements k) upts q c -> collocated F k q pts ->
        (eval F env e == user_cost F o (k_elements k) q c v l w pts b + nth n (q_x0 q) 0)%Q.
  Proof.
    intros l v w b El Ev Ew Hb. destruct (pr_costs _ _ _ _ _ _ is_prepared) as [v0 [v1 [E0 [E1 [_ S2]]]]].
    rewrite Ew in S2. inversion S2 as [|? w1 ? ? _ S3 Ea E2]; subst. inversion S3; subst. symmetry in E2.
    destruct (w_C58_direct_cost F points dfun k c0 nl s r v1 w1 HF HT Hpts Hcreate Hdirect E1 E2) as [e [Ee He]].
    exists e. split; [exact Ee|]. intros env q c D Hc Hcol. rewrite (He env q D).
    apply (cost_eq F pts upts x_c x_c0 o k q c is_prepared (po_symbols _ _ Hposed) (po_initial _ _ Hposed)
      (describes_fits env q D) some_elements Hc (po_new _ _ Hposed) l v w v1 w1 b); try assumption. exact ode_count.
  Qed.

  (** ** Bounds *)

  Lemma control_points : 0 < length (m_u m) -> control_count k = length upts.
  Proof.
    intros H. pose proof (tr_controls _ HT) as A. destruct (pr_parameters _ _ _ _ _ _ is_prepared) as [B _]. fold m in B.
    fold (k_model k) in B. destruct (pr_same _ _ _ _ _ _ is_prepared) as [E _]. cbv zeta in E. fold m in E. injection E as _ Eu _ _ _ _.
    unfold k_model in A, B. rewrite Eu in A. rewrite B in A. nia.
  Qed.

  Theorem bounds_iff : forall env q c, o_positive o = false -> describes k pts env s r q -> followed o (k_elements k) upts q c ->
      (bounded k env r <-> user_within o (k_elements k) q c upts pts).
  Proof.
    intros env q c Hpos D Hc. destruct whole as [Es [Sh [HK _]]].
    destruct (pr_same _ _ _ _ _ _ is_prepared) as [E [Eo [Eb _]]]. cbv zeta in E. fold m in E. injection E as Ey Eu Ep Eth _ _.
    injection Eo as _ _ _ Epo Eto. injection Eb as Eymin Eymax Eumin Eumax Epmin Epmax Etmin Etmax.
    destruct (pr_states _ _ _ _ _ _ is_prepared) as [Ex [_ [_ [Exmin Exmax]]]]. rewrite Hpos in Exmin. fold m in Ex.
    assert (Lx : length (m_x (k_model k)) = n + 1) by (unfold k_model; rewrite Ex, app_length; reflexivity).
    destruct (tr_bounds _ HT) as [[[A1 [A2 _]] [_ [_ [_ [_ _]]]]] _]. rewrite Exmin, app_length in A1. rewrite Exmax, app_length in A2.
    fold (k_model k) in A1, A2. rewrite Lx in A1, A2. cbn [length] in A1, A2.
    pose proof Sh as [Gx [Gy [Gu [_ [Lp [Lt Rt]]]]]].
    assert (Lpts : length pts = k_degree k) by apply Hpts.
    assert (Uv : forall el j i v, entry (r_u r) el j i = Some v -> forall tau, nth_error upts j = Some tau ->
                   (poly (c el i) tau == env v)%Q).
    { intros el j i v Ev tau Ht. destruct (grid_inside _ _ _ _ _ _ _ _ _ Gu Ev) as [I1 [I2 I3]].
      assert (Iu : i < length (m_u m)) by (unfold n_u, k_model in I3; rewrite Eu in I3; exact I3).
      apply (proj2 (Hc el I1 i Iu) j tau (env v) Ht).
      destruct (controls_given el I1) as [l [El R]]. rewrite (de_u _ _ _ _ _ _ D el l El).
      assert (El2 : entry2 l j i = Some v) by (unfold entry in Ev; rewrite El in Ev; exact Ev).
      pose proof (rows_entry _ _ _ _ _ _ _ R El2) as Hn. replace (n_u k) with (length (m_u m)) in Hn by (unfold n_u, k_model; rewrite Eu; reflexivity).
      unfold m in Hn. rewrite nth_error_map, Hn. reflexivity. }
    split.
    - intros [B1 B2 B3 B4 B5]. constructor.
      + intros el tau i lo hi Hel Ht Hi Hlo Hhi. apply In_nth_error in Ht. destruct Ht as [j Ej].
        assert (Hj : j < k_degree k + 1) by (rewrite <- Lpts; assert (j < length (0%Q :: pts)) by (apply nth_error_Some; congruence); cbn in *; lia).
        destruct (grid_has _ _ _ _ _ el j i Gx Hel Hj ltac:(unfold n_x; rewrite Lx; fold m in Hi; fold n in Hi; lia)) as [v Ev].
        assert (V : (poly (q_x q el i) tau == env v)%Q).
        { apply (proj2 (de_x _ _ _ _ _ _ D el i Hel ltac:(rewrite Lx; fold m in Hi; fold n in Hi; lia)) j tau v Ej Ev). }
        apply (ext_le_compat lo hi _ _ V). apply (B1 el j i v lo hi Ev).
        * rewrite Exmin, nth_error_app1 by (apply nth_error_Some; congruence). exact Hlo.
        * rewrite Exmax, nth_error_app1 by (apply nth_error_Some; congruence). exact Hhi.
      + intros el tau i lo hi Hel Ht Hi Hlo Hhi. apply In_nth_error in Ht. destruct Ht as [j Ej].
        assert (Hj : j < k_degree k) by (rewrite <- Lpts; apply nth_error_Some; congruence).
        assert (Hi' : i < length (m_y (k_model k))) by (unfold k_model; rewrite Ey; exact Hi).
        destruct (grid_has _ _ _ _ _ el j i Gy Hel Hj Hi') as [v Ev].
        apply (ext_le_compat lo hi _ _ (proj2 (de_y _ _ _ _ _ _ D el i Hel Hi') j tau v Ej Ev)).
        apply (B2 el j i v lo hi Ev); [rewrite Eymin | rewrite Eymax]; assumption.
      + intros el tau i lo hi Hel Ht Hi Hlo Hhi. apply In_nth_error in Ht. destruct Ht as [j Ej].
        assert (Hj : j < control_count k) by (rewrite control_points by (fold m in Hi; lia); apply nth_error_Some; congruence).
        assert (Hi' : i < n_u k) by (unfold n_u, k_model; rewrite Eu; exact Hi).
        destruct (grid_has _ _ _ _ _ el j i Gu Hel Hj Hi') as [v Ev].
        apply (ext_le_compat lo hi _ _ (Uv el j i v Ev tau Ej)).
        apply (B3 el j i v lo hi Ev); [rewrite Eumin | rewrite Eumax]; assumption.
      + intros j i nm a lo hi Hj Hi Ha Hlo Hhi. fold m in Hi.
        assert (Hi' : nth_error (m_p (k_model k)) i = Some nm) by (unfold k_model; rewrite Ep; exact Hi).
        pose proof (proj2 (proj2 (de_p _ _ _ _ _ _ D) i nm Hi') j ltac:(rewrite Epo; exact Hj)) as V. rewrite Ha in V.
        destruct (nth_error (r_p r) j) as [v|] eqn:Ev; [|rewrite nth_error_map, Ev in V; discriminate].
        rewrite nth_error_map, Ev in V. assert (a = env v) by (cbn in V; congruence). subst a.
        apply (B4 j v lo hi Ev); [rewrite Epmin | rewrite Epmax]; assumption.
      + intros el j i nm a lo hi Hel Hj Hi Ha Hlo Hhi. fold m in Hi. destruct (theta_given el Hel) as [g [d [Eg Ed]]].
        assert (Hi' : nth_error (m_theta (k_model k)) i = Some nm) by (unfold k_model; rewrite Eth; exact Hi).
        pose proof (proj2 (proj2 (de_theta _ _ _ _ _ _ D el g d Eg Ed) i nm Hi') j ltac:(rewrite Eto; exact Hj)) as V. rewrite Ha in V.
        destruct (nth_error d j) as [v|] eqn:Ev; [|rewrite nth_error_map, Ev in V; discriminate].
        rewrite nth_error_map, Ev in V. assert (a = env v) by (cbn in V; congruence). subst a.
        apply (B5 el j v lo hi); [unfold entry2; rewrite Ed; exact Ev | rewrite Etmin | rewrite Etmax]; assumption.
    - intros [B1 B2 B3 B4 B5]. constructor.
      + intros el j i v lo hi Ev Hlo Hhi. destruct (grid_inside _ _ _ _ _ _ _ _ _ Gx Ev) as [I1 [I2 I3]]. unfold n_x in I3.
        destruct (nth_error (0%Q :: pts) j) as [tau|] eqn:Ej; [|apply nth_error_None in Ej; cbn in Ej; lia].
        apply (ext_le_compat lo hi _ _ (proj2 (de_x _ _ _ _ _ _ D el i I1 I3) j tau v Ej Ev)).
        rewrite Exmin in Hlo. rewrite Exmax in Hhi. destruct (Nat.eq_dec i n) as [->|Ne].
        * rewrite nth_error_app2 in Hlo by lia. rewrite nth_error_app2 in Hhi by lia.
          replace (n - length (o_x_min o)) with 0 in Hlo by lia. replace (n - length (o_x_max o)) with 0 in Hhi by lia.
          injection Hlo as <-. injection Hhi as <-. split; exact I.
        * rewrite nth_error_app1 in Hlo by lia. rewrite nth_error_app1 in Hhi by lia.
          apply (B1 el tau i lo hi I1); [exact (nth_error_In _ _ Ej) | fold m; fold n; lia | exact Hlo | exact Hhi].
      + intros el j i v lo hi Ev Hlo Hhi. destruct (grid_inside _ _ _ _ _ _ _ _ _ Gy Ev) as [I1 [I2 I3]]. unfold n_y in I3.
        destruct (nth_error pts j) as [tau|] eqn:Ej; [|apply nth_error_None in Ej; lia].
        apply (ext_le_compat lo hi _ _ (proj2 (de_y _ _ _ _ _ _ D el i I1 I3) j tau v Ej Ev)).
        rewrite Eymin in Hlo. rewrite Eymax in Hhi. unfold k_model in I3. rewrite Ey in I3.
        exact (B2 el tau i lo hi I1 (nth_error_In _ _ Ej) I3 Hlo Hhi).
      + intros el j i v lo hi Ev Hlo Hhi. destruct (grid_inside _ _ _ _ _ _ _ _ _ Gu Ev) as [I1 [I2 I3]].
        unfold n_u, k_model in I3. rewrite Eu in I3.
        destruct (nth_error upts j) as [tau|] eqn:Ej; [|apply nth_error_None in Ej; rewrite control_points in I2 by (unfold m in *; lia); lia].
        apply (ext_le_compat lo hi _ _ (Uv el j i v Ev tau Ej)).
        rewrite Eumin in Hlo. rewrite Eumax in Hhi. exact (B3 el tau i lo hi I1 (nth_error_In _ _ Ej) I3 Hlo Hhi).
      + intros j v lo hi Ev Hlo Hhi. assert (Hj : j < length (o_p_opt (k_problem k))) by (unfold n_p_opt in Lp; rewrite <- Lp; apply nth_error_Some; congruence).
        destruct (nth_error (o_p_opt (k_problem k)) j) as [nm|] eqn:Ej; [|apply nth_error_None in Ej; lia].
        destruct (tr_own _ HT) as [[O1 _] _]. pose proof (O1 nm (nth_error_In _ _ Ej)) as I. apply In_nth_error in I. destruct I as [i Hi].
        fold (k_model k) in Hi. pose proof (proj2 (proj2 (de_p _ _ _ _ _ _ D) i nm Hi) j Ej) as V. rewrite nth_error_map, Ev in V. cbn [option_map] in V.
        unfold k_model in Hi. rewrite Ep in Hi. rewrite Epo in Ej. rewrite Epmin in Hlo. rewrite Epmax in Hhi.
        exact (B4 j i nm (env v) lo hi Ej Hi V Hlo Hhi).
      + intros el j v lo hi Ev Hlo Hhi. unfold entry2 in Ev. destruct (nth_error (r_theta r) el) as [d|] eqn:Ed; [|discriminate].
        assert (Hel : el < k_elements k) by (rewrite <- Lt; apply nth_error_Some; congruence).
        destruct (theta_given el Hel) as [g [d' [Eg Ed']]].
        rewrite Forall_forall in Rt. pose proof (Rt d (nth_error_In _ _ Ed)) as Ld.
        assert (Hj : j < length (o_theta_opt (k_problem k))) by (unfold n_theta_opt in Ld; rewrite <- Ld; apply nth_error_Some; congruence).
        destruct (nth_error (o_theta_opt (k_problem k)) j) as [nm|] eqn:Ej; [|apply nth_error_None in Ej; lia].
        destruct (tr_own _ HT) as [[_ O2] _]. pose proof (O2 nm (nth_error_In _ _ Ej)) as I. apply In_nth_error in I. destruct I as [i Hi].
        fold (k_model k) in Hi. pose proof (proj2 (proj2 (de_theta _ _ _ _ _ _ D el g d Eg Ed) i nm Hi) j Ej) as V. rewrite nth_error_map, Ev in V. cbn [option_map] in V.
        unfold k_model in Hi. rewrite Eth in Hi. rewrite Eto in Ej. rewrite Etmin in Hlo. rewrite Etmax in Hhi.
        exact (B5 el j i nm (env v) lo hi Hel Ej Hi V Hlo Hhi).
  Qed.

  (** ** Other trajectories with the same data *)

  Definition mixed (env env' : sym -> Q) : sym -> Q := fun v => if in_dec Nat.eq_dec v (all_mx s) then env v else env' v.
  Lemma mixed_given : forall env env' l, incl l (all_mx s) -> map (mixed env env') l = map env l.
  Proof.
    intros env env' l H. apply map_ext_in. intros v Hv. unfold mixed. destruct (in_dec Nat.eq_dec v (all_mx s)) as [_|N]; [reflexivity|].
    exfalso. apply N, H, Hv.
  Qed.
  Lemma mixed_decided : forall env env' v, In v (flatten r) -> mixed env env' v = env' v.
  Proof.
    intros env env' v Hv. unfold mixed. destruct (in_dec Nat.eq_dec v (all_mx s)) as [I|_]; [|reflexivity].
    exfalso. destruct whole as [_ [_ [_ N]]]. exact (NoDup_app_disjoint _ _ _ v N I Hv).
  Qed.
  Lemma mixed_decided_map : forall env env' l, incl l (flatten r) -> map (mixed env env') l = map env' l.
  Proof. intros env env' l H. apply map_ext_in. intros v Hv. apply mixed_decided, H, Hv. Qed.

  Lemma describes_mixed : forall env env' q q', describes k pts env s r q -> describes k pts env' s r q' ->
      same_data o (k_elements k) q q' -> describes k pts (mixed env env') s r q'.
  Proof.
    intros env env' q q' D D' [S1 S2 S3 S4].
    destruct (pr_same _ _ _ _ _ _ is_prepared) as [E [Eo _]]. cbv zeta in E. fold m in E. injection E as Ey Eu Ep Eth _ _.
    injection Eo as _ _ _ Epo Eto.
    assert (Ir : forall v, In v (concat (concat (r_x r))) \/ In v (concat (concat (r_y r))) \/ In v (concat (concat (r_u r))) \/ In v (r_eta r) \/ In v (r_p r) \/ In v (concat (r_theta r)) -> In v (flatten r)).
    { intros v H. unfold flatten. rewrite !in_app_iff. tauto. }
    assert (Im : incl (ps_p s) (all_mx s) /\ incl (concat (ps_theta s)) (all_mx s) /\ incl (ps_x0 s) (all_mx s) /\ incl (ps_last_u s) (all_mx s)).
    { unfold all_mx. repeat match goal with |- _ /\ _ => split end; intros v Hv; rewrite !in_app_iff; tauto. }
    destruct Im as [I1 [I2 [I3 I4]]]. constructor.
    - intros el i Hel Hi. destruct (de_x _ _ _ _ _ _ D' el i Hel Hi) as [A B]. split; [exact A|]. intros j tau v Ht Hv.
      rewrite mixed_decided by (apply Ir; left; exact (entry_In _ _ _ _ _ _ Hv)). exact (B j tau v Ht Hv).
    - intros el i Hel Hi. destruct (de_y _ _ _ _ _ _ D' el i Hel Hi) as [A B]. split; [exact A|]. intros j tau v Ht Hv.
      rewrite mixed_decided by (apply Ir; right; left; exact (entry_In _ _ _ _ _ _ Hv)). exact (B j tau v Ht Hv).
    - intros el l El. rewrite mixed_decided_map; [apply (de_u _ _ _ _ _ _ D' el l El)|].
      intros v Hv. apply Ir. right; right; left. apply in_concat in Hv. destruct Hv as [w [Hw Hv]]. apply in_concat. exists w. split; [|exact Hv].
      apply in_concat. exists l. split; [exact (nth_error_In _ _ El) | exact Hw].
    - rewrite mixed_given by exact I1. rewrite mixed_decided_map by (intros v Hv; apply Ir; tauto).
      split; [apply (de_p _ _ _ _ _ _ D')|]. intros i nm Hi. split.
      + intros Hn. rewrite (S3 i nm).
        * apply (proj1 (proj2 (de_p _ _ _ _ _ _ D) i nm Hi) Hn).
        * unfold k_model in Hi. rewrite Ep in Hi. exact Hi.
        * rewrite <- Epo. exact Hn.
      + intros j Hj. apply (proj2 (proj2 (de_p _ _ _ _ _ _ D') i nm Hi) j Hj).
    - intros el g d Eg Ed.
      assert (Hel : el < k_elements k).
      { destruct whole as [Es _]. pose proof (theta_syms_rows k c0) as [L1 _]. rewrite <- Es in L1. rewrite <- L1. apply nth_error_Some. congruence. }
      rewrite mixed_given by (intros v Hv; apply I2, in_concat; exists g; split; [exact (nth_error_In _ _ Eg) | exact Hv]).
      rewrite mixed_decided_map by (intros v Hv; apply Ir; do 5 right; apply in_concat; exists d; split; [exact (nth_error_In _ _ Ed) | exact Hv]).
      split; [apply (de_theta _ _ _ _ _ _ D' el g d Eg Ed)|]. intros i nm Hi. split.
      + intros Hn. rewrite (S4 el i nm Hel).
        * apply (proj1 (proj2 (de_theta _ _ _ _ _ _ D el g d Eg Ed) i nm Hi) Hn).
        * unfold k_model in Hi. rewrite Eth in Hi. exact Hi.
        * rewrite <- Eto. exact Hn.
      + intros j Hj. apply (proj2 (proj2 (de_theta _ _ _ _ _ _ D' el g d Eg Ed) i nm Hi) j Hj).
    - rewrite mixed_decided_map by (intros v Hv; apply Ir; tauto). apply (de_eta _ _ _ _ _ _ D').
    - rewrite mixed_given by exact I3. rewrite S1. apply (de_x0 _ _ _ _ _ _ D).
    - rewrite mixed_given by exact I4. rewrite S2. apply (de_last_u _ _ _ _ _ _ D).
  Qed.

  Lemma sized_with_cost : forall q g, sized k pts q -> (forall el, length (g el) <= S (length pts)) -> sized k pts (with_cost q n g).
  Proof.
    intros q g [] Hg. constructor; try assumption. intros el i. cbn [with_cost q_x]. destruct (Nat.eqb i n); [apply Hg | auto].
  Qed.
  Lemma within_with_cost : forall N q c g, user_within o N q c upts pts -> user_within o N (with_cost q n g) c upts pts.
  Proof.
    intros N q c g [B1 B2 B3 B4 B5]. constructor; try assumption.
    intros el tau i lo hi Hel Ht Hi. cbn [with_cost q_x]. destruct (Nat.eqb_spec i n) as [E|E]; [unfold n, m in E; clear - E Hi; lia|]. exact (B1 el tau i lo hi Hel Ht Hi).
  Qed.

  (** Every trajectory of the user is found among the feasible points. *)
  Theorem user_reached : forall l v w b, o_L o = [l] -> o_V o = [v] -> o_S o = [w] -> exact_rule pts b ->
      exists e, nf nl = [e] /\ forall q c, sized k pts q -> followed o (k_elements k) upts q c -> user_collocated F o (k_elements k) q c pts ->
        exists env g, describes k pts env s r (with_cost q n g) /\
          (feasible F env nl <-> bounded k env r) /\
          (eval F env e == user_cost F o (k_elements k) q c v l w pts b + nth n (q_x0 q) 0)%Q.
  Proof.
    intros l v w b El Ev Ew Hb. destruct (objective l v w b El Ev Ew Hb) as [e [Ee He]]. exists e. split; [exact Ee|].
    intros q c Z Hc Hu.
    destruct (completion F pts upts x_c x_c0 o k q c l is_prepared (po_symbols _ _ Hposed) (po_initial _ _ Hposed)
      (sized_fits q Z) some_elements Hc (po_new _ _ Hposed) El ode_count d_pts Hu) as [g [Lg Hcol]].
    fold m in Hcol. fold n in Hcol.
    destruct (decision_exists points dfun k c0 nl s r (with_cost q n g) HT Hpts Hcreate (sized_with_cost q g Z Lg)) as [env D].
    exists env, g. split; [exact D|]. split.
    - rewrite (w_C58_feasible F points dfun k c0 nl s r HF HT Hpts Hcreate env _ D). fold pts. tauto.
    - rewrite (He env (with_cost q n g) c D Hc Hcol). unfold n, m. rewrite user_cost_with_cost. reflexivity.
  Qed.

  (** Optimal points are optimal trajectories of the user. *)
  Theorem optimal : forall l v w b, o_L o = [l] -> o_V o = [v] -> o_S o = [w] -> exact_rule pts b -> o_positive o = false ->
      exists e, nf nl = [e] /\ forall env q c, describes k pts env s r q -> followed o (k_elements k) upts q c -> feasible F env nl ->
        (forall env', map env' (all_mx s) = map env (all_mx s) -> feasible F env' nl -> (eval F env e <= eval F env' e)%Q) ->
        user_collocated F o (k_elements k) q c pts /\ user_within o (k_elements k) q c upts pts /\
        forall q' c', sized k pts q' -> followed o (k_elements k) upts q' c' -> same_data o (k_elements k) q q' ->
          user_collocated F o (k_elements k) q' c' pts -> user_within o (k_elements k) q' c' upts pts ->
          (user_cost F o (k_elements k) q c v l w pts b <= user_cost F o (k_elements k) q' c' v l w pts b)%Q.
  Proof.
    intros l v w b El Ev Ew Hb Hpos. destruct (objective l v w b El Ev Ew Hb) as [e [Ee He]]. exists e. split; [exact Ee|].
    intros env q c D Hc Hf Hmin. pose proof Hf as Hf'. apply (feasible_iff env q c l El D Hc) in Hf'. destruct Hf' as [Hb1 [Hu _]].
    split; [exact Hu|]. split; [apply (bounds_iff env q c Hpos D Hc), Hb1|].
    intros q' c' Z Hc' Hsame Hu' Hw'.
    destruct (completion F pts upts x_c x_c0 o k q' c' l is_prepared (po_symbols _ _ Hposed) (po_initial _ _ Hposed)
      (sized_fits q' Z) some_elements Hc' (po_new _ _ Hposed) El ode_count d_pts Hu') as [g [Lg Hcol]].
    fold m in Hcol. fold n in Hcol.
    destruct (decision_exists points dfun k c0 nl s r (with_cost q' n g) HT Hpts Hcreate (sized_with_cost q' g Z Lg)) as [env1 D1].
    assert (D2 : describes k pts (mixed env env1) s r (with_cost q' n g)).
    { apply (describes_mixed env env1 q); [exact D | exact D1|]. destruct Hsame as [S1 S2 S3 S4]. constructor; assumption. }
    assert (F2 : feasible F (mixed env env1) nl).
    { apply (w_C58_feasible F points dfun k c0 nl s r HF HT Hpts Hcreate _ _ D2). split; [|exact Hcol].
      apply (bounds_iff (mixed env env1) (with_cost q' n g) c' Hpos D2 Hc'). apply within_with_cost, Hw'. }
    pose proof (Hmin (mixed env env1) (mixed_given env env1 (all_mx s) (incl_refl _)) F2) as M.
    rewrite (He (mixed env env1) (with_cost q' n g) c' D2 Hc' Hcol) in M.
    apply (w_C58_feasible F points dfun k c0 nl s r HF HT Hpts Hcreate env q D) in Hf.
    rewrite (He env q c D Hc (proj2 Hf)) in M. unfold n, m in M. rewrite user_cost_with_cost in M.
    cbn [with_cost q_x0] in M. rewrite (sd_x0 _ _ _ _ Hsame) in M. lra.
  Qed.
End Top.

(** ** The statements *)

Lemma w_C67_prepared : forall F points d x_c x_c0 first o o',
    respects F -> 0 < d -> collocation_points (points d) d ->
    direct_prepare points d x_c x_c0 first o = (o', Ok tt) -> prepared F (points d) x_c x_c0 o o'.
Proof.
  intros F points d x_c x_c0 first o o' HF Hd Hp H. apply (prepare_prepared F points d x_c x_c0 first); try assumption.
  - apply Hp.
  - apply (distinct_tail 0%Q), sorted_distinct, Hp.
Qed.
Lemma w_C67_feasible : forall F points dfun k c0 nl s r o x_c x_c0 first l,
    respects F -> direct_setting points dfun k c0 nl s r o x_c x_c0 first -> o_L o = [l] ->
    forall env q c, describes k (points (k_degree k)) env s r q ->
      followed o (k_elements k) (points (k_degree_control k)) q c ->
      (feasible F env nl <->
       bounded k env r /\ user_collocated F o (k_elements k) q c (points (k_degree k)) /\
       accumulates F o (k_elements k) q c (length (m_x (o_model o))) l (points (k_degree k))).
Proof.
  intros F points dfun k c0 nl s r o x_c x_c0 first l HF [A1 A2 A3 A4 A5 A6 A7 A8] El env q c D Hc.
  apply (feasible_iff F points dfun k c0 nl s r o x_c x_c0 first); assumption.
Qed.
Lemma w_C67_bounds : forall F points dfun k c0 nl s r o x_c x_c0 first,
    respects F -> direct_setting points dfun k c0 nl s r o x_c x_c0 first -> o_positive o = false ->
    forall env q c, describes k (points (k_degree k)) env s r q ->
      followed o (k_elements k) (points (k_degree_control k)) q c ->
      (bounded k env r <-> user_within o (k_elements k) q c (points (k_degree_control k)) (points (k_degree k))).
Proof.
  intros F points dfun k c0 nl s r o x_c x_c0 first HF [A1 A2 A3 A4 A5 A6 A7 A8] Hp env q c D Hc.
  apply (bounds_iff F points dfun k c0 nl s r o x_c x_c0 first); assumption.
Qed.
Lemma w_C67_objective : forall F points dfun k c0 nl s r o x_c x_c0 first l v w b,
    respects F -> direct_setting points dfun k c0 nl s r o x_c x_c0 first ->
    o_L o = [l] -> o_V o = [v] -> o_S o = [w] -> exact_rule (points (k_degree k)) b ->
    exists e, nf nl = [e] /\ forall env q c, describes k (points (k_degree k)) env s r q ->
      followed o (k_elements k) (points (k_degree_control k)) q c -> feasible F env nl ->
      (eval F env e == user_cost F o (k_elements k) q c v l w (points (k_degree k)) b + nth (length (m_x (o_model o))) (q_x0 q) 0)%Q.
Proof.
  intros F points dfun k c0 nl s r o x_c x_c0 first l v w b HF [A1 A2 A3 A4 A5 A6 A7 A8] El Ev Ew Hb.
  destruct (objective F points dfun k c0 nl s r o x_c x_c0 first HF A1 A2 A3 A4 A5 A6 A7 A8 l v w b El Ev Ew Hb) as [e [Ee He]].
  exists e. split; [exact Ee|]. intros env q c D Hc Hf. apply (He env q c D Hc).
  apply (w_C58_feasible F points dfun k c0 nl s r HF A1 A2 A7 env q D), Hf.
Qed.
Lemma w_C67_every_trajectory : forall F points dfun k c0 nl s r o x_c x_c0 first l v w b,
    respects F -> direct_setting points dfun k c0 nl s r o x_c x_c0 first ->
    o_L o = [l] -> o_V o = [v] -> o_S o = [w] -> exact_rule (points (k_degree k)) b ->
    exists e, nf nl = [e] /\ forall q c, sized k (points (k_degree k)) q ->
      followed o (k_elements k) (points (k_degree_control k)) q c ->
      user_collocated F o (k_elements k) q c (points (k_degree k)) ->
      exists env g, describes k (points (k_degree k)) env s r (with_cost q (length (m_x (o_model o))) g) /\
        (feasible F env nl <-> bounded k env r) /\
        (eval F env e == user_cost F o (k_elements k) q c v l w (points (k_degree k)) b + nth (length (m_x (o_model o))) (q_x0 q) 0)%Q.
Proof.
  intros F points dfun k c0 nl s r o x_c x_c0 first l v w b HF [A1 A2 A3 A4 A5 A6 A7 A8] El Ev Ew Hb.
  exact (user_reached F points dfun k c0 nl s r o x_c x_c0 first HF A1 A2 A3 A4 A5 A6 A7 A8 l v w b El Ev Ew Hb).
Qed.
Lemma w_C67_optimal : forall F points dfun k c0 nl s r o x_c x_c0 first l v w b,
    respects F -> direct_setting points dfun k c0 nl s r o x_c x_c0 first ->
    o_L o = [l] -> o_V o = [v] -> o_S o = [w] -> exact_rule (points (k_degree k)) b -> o_positive o = false ->
    let N := k_elements k in let pts := points (k_degree k) in let upts := points (k_degree_control k) in
    exists e, nf nl = [e] /\ forall env q c, describes k pts env s r q -> followed o N upts q c -> feasible F env nl ->
      (forall env', map env' (all_mx s) = map env (all_mx s) -> feasible F env' nl -> (eval F env e <= eval F env' e)%Q) ->
      user_collocated F o N q c pts /\ user_within o N q c upts pts /\
      forall q' c', sized k pts q' -> followed o N upts q' c' -> same_data o N q q' ->
        user_collocated F o N q' c' pts -> user_within o N q' c' upts pts ->
        (user_cost F o N q c v l w pts b <= user_cost F o N q' c' v l w pts b)%Q.
Proof.
  intros F points dfun k c0 nl s r o x_c x_c0 first l v w b HF [A1 A2 A3 A4 A5 A6 A7 A8] El Ev Ew Hb Hp.
  exact (optimal F points dfun k c0 nl s r o x_c x_c0 first HF A1 A2 A3 A4 A5 A6 A7 A8 l v w b El Ev Ew Hb Hp).
Qed.
Lemma w_C67_controls : forall points d n par, collocation_points (points d) d -> length par = d * n ->
    (exists c, through (points d) n par c) /\
    forall c c' i t, through (points d) n par c -> through (points d) n par c' -> i < n -> (poly (c i) t == poly (c' i) t)%Q.
Proof.
  intros points d n par Hp L. assert (D : distinct (points d)) by (apply (distinct_tail 0%Q), sorted_distinct, Hp).
  rewrite <- (proj1 Hp) in L. split.
  - apply controls_exist; assumption.
  - intros c c' i t H H' Hi. apply (controls_unique (points d) n par c c' i t D L H H' Hi).
Qed.
Lemma w_C67_rule : forall pts d, collocation_points pts d ->
    (exists b, exact_rule pts b) /\
    forall b b' j, exact_rule pts b -> exact_rule pts b' -> (nth j b 0 == nth j b' 0)%Q.
Proof.
  intros pts d Hp. assert (D : distinct pts) by (apply (distinct_tail 0%Q), sorted_distinct, Hp). split.
  - apply rule_exists, D.
  - intros b b' j H H'. exact (rule_unique pts b b' D H H' j).
Qed.

(** Proofs about trajectories of problems prepared by the direct method. *)
From Coq Require Import String Qabs Lqa Sorted Setoid.
From Verif Require Import Base BaseProofs UtilModel ExprModel ExprProofs NlpModel NlpSpec SysModel SysSpec SysProofs
  OcpModel OcpSpec SimModel LagModel LagSpec LagProofs DiscModel DiscSpec ColSpec ColEvalProofs DirQuadProofs ColPolyProofs ColMainProofs ColTopProofs DirSpec DirProofs.
Local Open Scope list_scope.
Local Open Scope nat_scope.

Lemma assign_in_app : forall env a b va vb s, length a = length va ->
    assign env (a ++ b) (va ++ vb) s = if in_dec Nat.eq_dec s a then assign env a va s else assign env b vb s.
Proof.
  intros env a. induction a as [|x a IH]; intros b [|y va] vb s L; try discriminate; [reflexivity|].
  cbn [app assign]. rewrite IH by (cbn in L; lia).
  destruct (Nat.eq_dec s x) as [->|N].
  - destruct (in_dec Nat.eq_dec x (x :: a)) as [_|X]; [reflexivity | exfalso; apply X; left; reflexivity].
  - destruct (in_dec Nat.eq_dec s a) as [I|I]; destruct (in_dec Nat.eq_dec s (x :: a)) as [J|J]; try reflexivity.
    + exfalso. apply J. right. exact I.
    + exfalso. destruct J as [J|J]; [apply N; auto | exact (I J)].
Qed.

Section Blocks.
  Variables (e0 : sym -> Q) (T X Y U P TH PAR X0 ETA : list sym) (xc xc0 : sym)
            (VT VX VY UV VP VTH VPAR VX0 VETA : list Q) (vc vc0 : Q).
  Hypotheses (LT : length T = length VT) (LX : length X = length VX) (LY : length Y = length VY) (LU : length U = length UV)
             (LP : length P = length VP) (LTH : length TH = length VTH) (LPAR : length PAR = length VPAR)
             (LX0 : length X0 = length VX0).
  Hypothesis N : NoDup ((T ++ X ++ Y ++ U ++ P ++ TH ++ X0 ++ ETA) ++ xc :: xc0 :: PAR).
  Let big := assign e0 (T ++ X ++ [xc] ++ Y ++ P ++ TH ++ PAR ++ X0 ++ [xc0] ++ ETA)
                       (VT ++ VX ++ [vc] ++ VY ++ VP ++ VTH ++ VPAR ++ VX0 ++ [vc0] ++ VETA).

  Lemma apart : forall s, In s (T ++ X ++ Y ++ U ++ P ++ TH ++ X0 ++ ETA) -> ~ In s (xc :: xc0 :: PAR).
  Proof. intros s H. exact (NoDup_app_disjoint _ _ _ s N H). Qed.
  Ltac spread := unfold big; repeat (rewrite assign_in_app by (assumption || reflexivity)).
  Ltac absent s := repeat match goal with
    | |- context [in_dec Nat.eq_dec s ?l] => destruct (in_dec Nat.eq_dec s l) as [?I|?I] end.
  Lemma not_user : forall s, In s (xc :: xc0 :: PAR) ->
      ~ In s T /\ ~ In s X /\ ~ In s Y /\ ~ In s P /\ ~ In s TH /\ ~ In s X0.
  Proof.
    intros s H. repeat split; intros I; refine (apart s _ H); repeat (rewrite in_app_iff); tauto.
  Qed.
  Lemma tail_nodup : NoDup (xc :: xc0 :: PAR).
  Proof. exact (NoDup_app_r _ _ _ N). Qed.

  Lemma big_xc : big xc = vc.
  Proof.
    spread. destruct (not_user xc (or_introl eq_refl)) as [A [B _]].
    destruct (in_dec Nat.eq_dec xc T); [contradiction|]. destruct (in_dec Nat.eq_dec xc X); [contradiction|].
    destruct (in_dec Nat.eq_dec xc [xc]) as [_|I]; [|exfalso; apply I; left; reflexivity].
    cbn. destruct (Nat.eq_dec xc xc); [reflexivity | contradiction].
  Qed.
  Lemma big_xc0 : big xc0 = vc0.
  Proof.
    spread. destruct (not_user xc0 (or_intror (or_introl eq_refl))) as [A [B [C [D [E G]]]]].
    pose proof tail_nodup as TN. inversion TN as [|? ? T1 T2]; subst. inversion T2 as [|? ? T3 T4]; subst.
    assert (K : ~ In xc0 [xc]). { intros [->|[]]. apply T1. left. reflexivity. }
    repeat (match goal with |- context [in_dec Nat.eq_dec xc0 ?l] => destruct (in_dec Nat.eq_dec xc0 l); [contradiction|] end).
    destruct (in_dec Nat.eq_dec xc0 [xc0]) as [_|I]; [|exfalso; apply I; left; reflexivity].
    cbn. destruct (Nat.eq_dec xc0 xc0); [reflexivity | contradiction].
  Qed.
  Lemma big_par : map big PAR = VPAR.
  Proof.
    pose proof tail_nodup as TN. inversion TN as [|? ? T1 T2]; subst. inversion T2 as [|? ? T3 T4]; subst.
    transitivity (map (assign e0 PAR VPAR) PAR); [|exact (assign_map e0 PAR VPAR T4 LPAR)]. apply map_ext_in. intros s Hs.
    destruct (not_user s (or_intror (or_intror Hs))) as [A [B [C [D [E G]]]]].
    assert (K : ~ In s [xc]). { intros [->|[]]. apply T1. right. exact Hs. }
    spread.
    repeat (match goal with |- context [in_dec Nat.eq_dec s ?l] => destruct (in_dec Nat.eq_dec s l); [contradiction|] end).
    destruct (in_dec Nat.eq_dec s PAR); [reflexivity | contradiction].
  Qed.
  Lemma big_T : map big T = VT.
  Proof.
    transitivity (map (assign e0 T VT) T); [|exact (assign_map e0 T VT (NoDup_app_l _ _ _ (NoDup_app_l _ _ _ N)) LT)]. apply map_ext_in. intros s Hs.
    spread. destruct (in_dec Nat.eq_dec s T); [reflexivity | contradiction].
  Qed.

  Lemma assign_elsewhere : forall e1 e2 v p s, In s v -> length v = length p -> assign e1 v p s = assign e2 v p s.
  Proof.
    intros e1 e2 v. induction v as [|a v IH]; intros [|b p] s H L; try discriminate; [destruct H|].
    cbn. destruct (Nat.eq_dec s a); [reflexivity|]. apply IH; [destruct H; [congruence | assumption] | cbn in L; lia].
  Qed.
  Lemma big_agrees : forall s, ~ In s (xc :: xc0 :: PAR) ->
      assign big U UV s = assign e0 (T ++ X ++ Y ++ U ++ P ++ TH ++ X0 ++ ETA) (VT ++ VX ++ VY ++ UV ++ VP ++ VTH ++ VX0 ++ VETA) s.
  Proof.
    intros s Hs. assert (K1 : ~ In s [xc]) by (intros [->|[]]; apply Hs; left; reflexivity).
    assert (K2 : ~ In s [xc0]) by (intros [->|[]]; apply Hs; right; left; reflexivity).
    assert (K3 : ~ In s PAR) by (intros I; apply Hs; right; right; exact I).
    repeat (rewrite (assign_in_app e0) by (assumption || reflexivity)).
    destruct (in_dec Nat.eq_dec s U) as [I|I].
    - assert (D : ~ In s T /\ ~ In s X /\ ~ In s Y).
      { pose proof (NoDup_app_l _ _ _ N) as M. split; [|split]; intros J.
        - apply (NoDup_app_disjoint _ _ _ s M J). rewrite !in_app_iff. tauto.
        - apply NoDup_app_r in M. apply (NoDup_app_disjoint _ _ _ s M J). rewrite !in_app_iff. tauto.
        - apply NoDup_app_r in M. apply NoDup_app_r in M. apply (NoDup_app_disjoint _ _ _ s M J). rewrite !in_app_iff. tauto. }
      destruct D as [D1 [D2 D3]].
      destruct (in_dec Nat.eq_dec s T); [contradiction|]. destruct (in_dec Nat.eq_dec s X); [contradiction|].
      destruct (in_dec Nat.eq_dec s Y); [contradiction|]. apply assign_elsewhere; assumption.
    - rewrite assign_notin by exact I. spread.
      destruct (in_dec Nat.eq_dec s [xc]); [contradiction|]. destruct (in_dec Nat.eq_dec s [xc0]); [contradiction|].
      destruct (in_dec Nat.eq_dec s PAR); [contradiction|]. reflexivity.
  Qed.
End Blocks.

Section Agree.
  Variables (F : nat -> Q -> Q) (pts upts : list Q) (x_c x_c0 : sym) (o : ocp) (k : method) (q : trajectory) (c : nat -> nat -> list Q).
  Hypothesis HF : respects F.
  Hypothesis P : prepared F upts x_c x_c0 o (k_problem k).
  Let m := o_model o.
  Let n := length (m_x m).
  Let par := m_u_par (k_model k).
  Hypothesis Hsym : NoDup (user_symbols o ++ x_c :: x_c0 :: par).
  Hypothesis Hx0 : length (m_x_0 m) = n.
  Hypothesis Hq : fits k pts q.
  Hypothesis Hpos : 0 < k_elements k.
  Hypothesis Hc : forall el, el < k_elements k -> through upts (length (m_u m)) (q_u q el) (c el).
  Hypothesis Hfresh : forall e s, In e (written o) -> In s (x_c :: x_c0 :: par) -> ~ mentions e s.

  Let env el tau := at_point k q el tau.
  Let uenv el tau := user_point o (k_elements k) q c el tau.

  Lemma same_step : step_size k = user_step o (k_elements k).
  Proof.
    destruct (pr_same _ _ _ _ _ _ P) as [_ [E _]]. unfold step_size, user_step.
    injection E as E1 E2 _ _ _. rewrite E1, E2. reflexivity.
  Qed.

  Lemma lengths : length (q_p q) = length (m_p m) /\ (forall el, el < k_elements k -> length (q_theta q el) = length (m_theta m)) /\
      (forall el, el < k_elements k -> length (q_u q el) = length par) /\ length (q_x0 q) = n + 1.
  Proof.
    destruct (pr_same _ _ _ _ _ _ P) as [E _]. cbv zeta in E. fold m in E. injection E as _ _ Ep Eth _ _.
    destruct (pr_states _ _ _ _ _ _ P) as [Ex _]. fold m in Ex. destruct Hq as [_ Su Sp St Sx0].
    unfold k_model in *. rewrite Ep in Sp. rewrite Ex, app_length in Sx0. cbn in Sx0. rewrite Eth in St. repeat split; assumption.
  Qed.

  Lemma point_blocks : forall el tau, el < k_elements k ->
      exists e0 T X Y U PP TH X0 ETA VT VX VY UV VP VTH VX0 VETA vc vc0,
      (length T = length VT /\ length X = length VX /\ length Y = length VY /\ length U = length UV /\
       length PP = length VP /\ length TH = length VTH /\ length par = length (q_u q el) /\ length X0 = length VX0) /\
      NoDup ((T ++ X ++ Y ++ U ++ PP ++ TH ++ X0 ++ ETA) ++ x_c :: x_c0 :: par) /\
      env el tau = assign e0 (T ++ X ++ [x_c] ++ Y ++ PP ++ TH ++ par ++ X0 ++ [x_c0] ++ ETA)
                         (VT ++ VX ++ [vc] ++ VY ++ VP ++ VTH ++ q_u q el ++ VX0 ++ [vc0] ++ VETA) /\
      uenv el tau = assign e0 (T ++ X ++ Y ++ U ++ PP ++ TH ++ X0 ++ ETA) (VT ++ VX ++ VY ++ UV ++ VP ++ VTH ++ VX0 ++ VETA) /\
      U = m_u m /\ UV = map (fun i => poly (c el i) tau) (seq 0 (length (m_u m))) /\
      (exists t, T = [m_t m; m_tau m] /\ VT = [t; tau]) /\ vc = poly (q_x q el n) tau /\ vc0 = nth n (q_x0 q) 0%Q.
  Proof.
    intros el tau Hel. destruct (pr_same _ _ _ _ _ _ P) as [E [E2 _]]. cbv zeta in E. fold m in E. injection E as Ey Eu' Ep Eth Et Etau.
    injection E2 as _ _ Eeta _ _. destruct (pr_states _ _ _ _ _ _ P) as [Ex [Ex0 _]]. fold m in Ex, Ex0.
    destruct lengths as [Lp [Lth [Lu L0]]]. pose proof (Lth el Hel) as Lthe. pose proof (Lu el Hel) as Lue.
    exists (fun _ => 0%Q), [m_t m; m_tau m], (m_x m), (m_y m), (m_u m), (m_p m), (m_theta m), (m_x_0 m), (o_eta o).
    exists [(user_step o (k_elements k) * inject_Z (Z.of_nat el) + user_step o (k_elements k) * tau)%Q; tau].
    exists (map (fun i => poly (q_x q el i) tau) (seq 0 (length (m_x m)))), (map (fun i => poly (q_y q el i) tau) (seq 0 (length (m_y m)))).
    exists (map (fun i => poly (c el i) tau) (seq 0 (length (m_u m)))), (q_p q), (q_theta q el), (firstn (length (m_x m)) (q_x0 q)), (q_eta q).
    exists (poly (q_x q el n) tau), (nth n (q_x0 q) 0%Q).
    split.
    { rewrite !map_length, !seq_length, firstn_length, L0. fold n. repeat match goal with |- _ /\ _ => split end; auto. rewrite Hx0. lia. }
    split; [exact Hsym|]. split.
    { unfold env, at_point, problem_symbols, x_at, y_at, k_model. fold m. rewrite same_step.
      rewrite Ey, Ep, Eth, Et, Etau, Eeta, Ex, Ex0.
      assert (Ev : map (fun i => poly (q_x q el i) tau) (seq 0 (length (m_x m ++ [x_c]))) =
                   map (fun i => poly (q_x q el i) tau) (seq 0 (length (m_x m))) ++ [poly (q_x q el n) tau]).
      { rewrite app_length, seq_app, map_app. reflexivity. }
      assert (Ew : q_x0 q = firstn (length (m_x m)) (q_x0 q) ++ [nth n (q_x0 q) 0%Q]).
      { fold n. rewrite <- (firstn_skipn n (q_x0 q)) at 1. f_equal.
        assert (L1 : length (skipn n (q_x0 q)) = 1) by (rewrite skipn_length, L0; lia).
        rewrite <- (Nat.add_0_r n) at 2. rewrite <- nth_skipn_add.
        destruct (skipn n (q_x0 q)) as [|z [|? ?]]; try discriminate. reflexivity. }
      rewrite Ev. rewrite Ew at 1. fold (k_model k). fold par. rewrite <- !app_assoc. reflexivity. }
    split; [reflexivity|]. split; [reflexivity|]. split; [reflexivity|]. split; [eexists; split; reflexivity|]. split; reflexivity.
  Qed.

  Lemma point_values : forall el tau, el < k_elements k ->
      env el tau (m_tau m) = tau /\ map (env el tau) par = q_u q el /\
      env el tau x_c = poly (q_x q el n) tau /\ env el tau x_c0 = nth n (q_x0 q) 0%Q.
  Proof.
    intros el tau Hel. destruct (point_blocks el tau Hel) as (e0 & T & X & Y & U & PP & TH & X0 & ETA & VT & VX & VY & UV & VP & VTH & VX0 & VETA & vc & vc0 & L & N & E & _ & _ & _ & [t [ET EVT]] & Evc & Evc0).
    destruct L as [L1 [L2 [L3 [L4 [L5 [L6 [L7 L8]]]]]]]. rewrite E. split; [|split; [|split]].
    - pose proof (big_T e0 T X Y U PP TH par X0 ETA x_c x_c0 VT VX VY VP VTH (q_u q el) VX0 VETA vc vc0 L1 L2 L3 L5 L6 L7 L8 N) as B.
      rewrite ET, EVT in B |- *. cbn [map] in B. injection B as _ B. exact B.
    - apply (big_par e0 T X Y U PP TH par X0 ETA x_c x_c0 VT VX VY VP VTH (q_u q el) VX0 VETA vc vc0); assumption.
    - rewrite <- Evc. apply (big_xc e0 T X Y U PP TH par X0 ETA x_c x_c0 VT VX VY VP VTH (q_u q el) VX0 VETA vc vc0); assumption.
    - rewrite <- Evc0. apply (big_xc0 e0 T X Y U PP TH par X0 ETA x_c x_c0 VT VX VY VP VTH (q_u q el) VX0 VETA vc vc0); assumption.
  Qed.

  Lemma agree : forall el tau s, el < k_elements k -> ~ In s (x_c :: x_c0 :: par) -> with_controls m (env el tau) (c el) s = uenv el tau s.
  Proof.
    intros el tau s Hel Hs. unfold with_controls. rewrite (proj1 (point_values el tau Hel)).
    destruct (point_blocks el tau Hel) as (e0 & T & X & Y & U & PP & TH & X0 & ETA & VT & VX & VY & UV & VP & VTH & VX0 & VETA & vc & vc0 & L & N & E & E' & EU & EUV & _).
    destruct L as [L1 [L2 [L3 [L4 [L5 [L6 [L7 L8]]]]]]]. subst U UV. rewrite E, E'.
    apply (big_agrees e0 T X Y (m_u m) PP TH par X0 ETA x_c x_c0 VT VX VY (map (fun i => poly (c el i) tau) (seq 0 (length (m_u m)))) VP VTH (q_u q el) VX0 VETA vc vc0); assumption.
  Qed.

  (** Expressions of the user at points of the prepared problem. *)
  Lemma steered_value : forall e e' el tau, el < k_elements k -> (forall s, In s (x_c :: x_c0 :: par) -> ~ mentions e s) ->
      steered F m upts par e e' -> (eval F (env el tau) e' == eval F (uenv el tau) e)%Q.
  Proof.
    intros e e' el tau Hel Hm S. rewrite (S (env el tau) (c el)).
    - rewrite (eval_ext F _ (uenv el tau) e); [reflexivity|]. intros s Hs. apply agree; [exact Hel|]. intros I. exact (Hm s I Hs).
    - destruct (point_values el tau Hel) as [_ [E _]]. rewrite E. apply Hc, Hel.
  Qed.

  Lemma vanish_iff : forall es es' el tau, el < k_elements k -> (forall e, In e es -> In e (written o)) ->
      Forall2 (steered F m upts par) es es' -> (vanishes F k q es' el tau <-> user_vanishes F o (k_elements k) q c es el tau).
  Proof.
    intros es es' el tau Hel Hw H. unfold vanishes, user_vanishes. induction H as [|e e' es es' He H IH].
    - split; intros _ e [].
    - assert (V : (eval F (env el tau) e' == eval F (uenv el tau) e)%Q).
      { apply steered_value; [exact Hel | | exact He]. intros s Hs. apply (Hfresh e s); [apply Hw; left; reflexivity | exact Hs]. }
      specialize (IH (fun x Hx => Hw x (or_intror Hx))).
      split; intros A x [<-|Hx].
      + unfold env, uenv in V. rewrite <- V. apply A. left. reflexivity.
      + apply IH; [|exact Hx]. intros y Hy. apply A. right. exact Hy.
      + unfold env, uenv in V. rewrite V. apply A. left. reflexivity.
      + apply IH; [|exact Hx]. intros y Hy. apply A. right. exact Hy.
  Qed.

  Lemma not_a_control : forall s, In s (x_c :: x_c0 :: par) -> ~ In s (m_u m).
  Proof.
    intros s Hs I. refine (NoDup_app_disjoint _ _ _ s Hsym _ Hs). unfold user_symbols. fold m.
    cbn. rewrite !in_app_iff. tauto.
  Qed.
  Lemma initial_value : forall e' el tau, el < k_elements k -> steered F m upts par (EBin OSub (EVar x_c0) (EVar x_c)) e' ->
      (eval F (env el tau) e' == nth n (q_x0 q) 0 - poly (q_x q el n) tau)%Q.
  Proof.
    intros e' el tau Hel S. destruct (point_values el tau Hel) as [_ [E [E1 E2]]]. rewrite (S (env el tau) (c el)).
    - cbn [eval binop_eval]. unfold with_controls. rewrite !assign_notin by (apply not_a_control; cbn; tauto).
      rewrite E1, E2. reflexivity.
    - rewrite E. apply Hc, Hel.
  Qed.

  Lemma Forall2_nth_l : forall (A B : Type) (R : A -> B -> Prop) a b i x, Forall2 R a b -> nth_error a i = Some x ->
      exists y, nth_error b i = Some y /\ R x y.
  Proof.
    intros A B R a b i x H. revert i. induction H as [|u v a b Huv H IH]; intros [|i] E; try discriminate.
    - injection E as <-. exists v. auto.
    - exact (IH i E).
  Qed.
  Lemma Forall2_nth_r : forall (A B : Type) (R : A -> B -> Prop) a b i y, Forall2 R a b -> nth_error b i = Some y ->
      exists x, nth_error a i = Some x /\ R x y.
  Proof.
    intros A B R a b i x H. revert i. induction H as [|u v a b Huv H IH]; intros [|i] E; try discriminate.
    - injection E as <-. exists u. auto.
    - exact (IH i E).
  Qed.
  Ltac inw := match goal with H : In _ ?L |- _ => unfold written; rewrite !in_app_iff; try unfold m in H; tauto end.
  Lemma ode_written : forall s e, In (s, Some e) (m_ode m) -> In e (written o).
  Proof.
    intros s e H. unfold written. rewrite !in_app_iff. do 9 right. apply in_flat_map. exists (s, Some e). split; [exact H | left; reflexivity].
  Qed.
  Lemma constraint_values : forall gs gs' j g el tau, el < k_elements k -> (forall e, In e gs -> In e (written o)) ->
      Forall2 (steered F m upts par) gs gs' -> nth_error gs j = Some g ->
      exists g', nth_error gs' j = Some g' /\ (eval F (env el tau) g' == eval F (uenv el tau) g)%Q.
  Proof.
    intros gs gs' j g el tau Hel Hw H E. destruct (Forall2_nth_l _ _ _ _ _ _ _ H E) as [g' [E' S]]. exists g'. split; [exact E'|].
    apply steered_value; [exact Hel | | exact S]. intros s Hs. apply (Hfresh g s); [|exact Hs]. apply Hw. exact (nth_error_In _ _ E).
  Qed.
  Lemma constraint_values' : forall gs gs' j g' el tau, el < k_elements k -> (forall e, In e gs -> In e (written o)) ->
      Forall2 (steered F m upts par) gs gs' -> nth_error gs' j = Some g' ->
      exists g, nth_error gs j = Some g /\ (eval F (env el tau) g' == eval F (uenv el tau) g)%Q.
  Proof.
    intros gs gs' j g el tau Hel Hw H E. destruct (Forall2_nth_r _ _ _ _ _ _ _ H E) as [g' [E' S]]. exists g'. split; [exact E'|].
    apply steered_value; [exact Hel | | exact S]. intros s Hs. apply (Hfresh g' s); [|exact Hs]. apply Hw. exact (nth_error_In _ _ E').
  Qed.

  Theorem collocated_iff : forall l, o_L o = [l] -> length (m_ode m) = n ->
      (collocated F k q pts <->
       user_collocated F o (k_elements k) q c pts /\ accumulates F o (k_elements k) q c n l pts).
  Proof.
    intros l El Hode.
    destruct (pr_same _ _ _ _ _ _ P) as [E [E2 [_ [Edu Ew]]]]. cbv zeta in E. fold m in E. injection E as Ey Eu' Ep Eth Et Etau.
    injection Edu as Edu1 Edu2. injection Ew as Ew1 Ew2.
    destruct (pr_states _ _ _ _ _ _ P) as [Ex [Ex0 _]]. fold m in Ex, Ex0.
    destruct (pr_dynamics _ _ _ _ _ _ P) as [l' [El' D]]. assert (l' = l) by congruence. subst l'. fold m in D.
    fold (k_model k) in D. fold par in D.
    destruct (pr_constraints _ _ _ _ _ _ P) as [Calg [Cinit [Cfin [Ch [Cineq Ceq]]]]]. fold m in Calg, Cinit, Cfin, Ch, Cineq, Ceq.
    fold (k_model k) in Calg, Cinit, Cfin, Ch, Cineq, Ceq. fold par in Calg, Cinit, Cfin, Ch, Cineq, Ceq.
    apply Forall2_app_inv_l in Cinit. destruct Cinit as [hi [hl [Ci [Cl Ehi]]]].
    inversion Cl as [|? e0 ? ? Se0 Cl']; subst. inversion Cl'; subst. clear Cl Cl'.
    apply Forall2_app_inv_l in D. destruct D as [di [dl [Di [Dl Ed]]]].
    inversion Dl as [|? [s0 oe0] ? ? [Es0 Sl] Dl']; subst. inversion Dl'; subst. clear Dl Dl'. cbn [fst snd] in Es0, Sl.
    destruct oe0 as [l0|]; [|contradiction].
    assert (Ldi : length di = n) by (rewrite <- (Forall2_len _ _ _ _ _ Di); exact Hode).
    assert (Lx : length (m_x (k_model k)) = n + 1) by (unfold k_model; rewrite Ex, app_length; reflexivity).
    assert (Ll : forall el tau, el < k_elements k -> (eval F (env el tau) l0 == eval F (uenv el tau) l)%Q).
    { intros el tau Hel. apply steered_value; [exact Hel | | exact Sl]. intros s Hs. apply (Hfresh l s); [|exact Hs].
      unfold written. rewrite El. left. reflexivity. }
    split.
    - intros [A1 A2 A3 A4 A5 A6 A7 A8 A9]. split; constructor.
      + apply (vanish_iff (o_h_initial o) hi 0 0%Q Hpos); [intros; inw | exact Ci|]. intros e He. apply A1. rewrite Ehi. apply in_or_app. auto.
      + intros el i H1 H2. apply A2; [exact H1 | rewrite Lx; fold m in H2; fold n in H2; lia].
      + intros el tau i s e H1 H2 H3. rewrite <- same_step. destruct (Forall2_nth_l _ _ _ _ _ _ _ Di H3) as [[s' oe] [H4 [H5 H6]]]. cbn [fst snd] in H5, H6.
        destruct oe as [e'|]; [|contradiction].
        assert (V : (eval F (env el tau) e' == eval F (uenv el tau) e)%Q).
        { apply steered_value; [exact H1 | | exact H6]. intros z Hz. apply (Hfresh e z); [|exact Hz]. apply (ode_written s). exact (nth_error_In _ _ H3). }
        unfold env, uenv in V. rewrite <- V. apply (A3 el tau i s' e' H1 H2). rewrite Ed.
        rewrite nth_error_app1 by (apply nth_error_Some; congruence). exact H4.
      + intros el tau H1 H2 H3. apply (vanish_iff (m_alg m) (m_alg (k_model k)) el tau H1); [intros; inw | exact Calg|].
        apply A4; [exact H1 | exact H2 |]. unfold k_model. rewrite Ey. exact H3.
      + intros el i lo hi0 H1 H2 H3. apply (A5 el i); [exact H1 | rewrite Edu1; exact H2 | rewrite Edu2; exact H3].
      + intros el j g w tau H1 H2 H3 H4. destruct (constraint_values (o_g_ineq o) (o_g_ineq (k_problem k)) j g el tau H1 ltac:(intros; inw) Cineq H2) as [g' [H5 V]].
        unfold env, uenv in V. rewrite <- V. apply (A6 el j g' w tau H1 H5); [rewrite Ew1; exact H3 | exact H4].
      + intros el j g w tau H1 H2 H3 H4. destruct (constraint_values (o_g_eq o) (o_g_eq (k_problem k)) j g el tau H1 ltac:(intros; inw) Ceq H2) as [g' [H5 V]].
        unfold env, uenv in V. rewrite <- V. apply (A7 el j g' w tau H1 H5); [rewrite Ew2; exact H3 | exact H4].
      + apply (vanish_iff (o_h_final o) (o_h_final (k_problem k)) (k_elements k - 1) 1%Q ltac:(lia)); [intros; inw | exact Cfin | exact A8].
      + apply (vanish_iff (o_h o) (o_h (k_problem k)) (k_elements k - 1) 1%Q ltac:(lia)); [intros; inw | exact Ch | exact A9].
      + pose proof (initial_value e0 0 0%Q Hpos Se0) as V. pose proof (A1 e0 ltac:(rewrite Ehi; apply in_or_app; right; left; reflexivity)) as Z.
        unfold env in V. rewrite Z in V. lra.
      + intros el H1. apply A2; [exact H1 | rewrite Lx; lia].
      + intros el tau H1 H2. rewrite <- same_step. pose proof (Ll el tau H1) as V. unfold env, uenv in V. rewrite <- V.
        apply (A3 el tau n s0 l0 H1 H2). rewrite Ed, nth_error_app2 by lia. rewrite Ldi, Nat.sub_diag. reflexivity.
    - intros [[A1 A2 A3 A4 A5 A6 A7 A8 A9] [B1 B2 B3]]. constructor.
      + rewrite Ehi. intros e He. apply in_app_or in He. destruct He as [He|[<-|[]]].
        * apply (proj2 (vanish_iff (o_h_initial o) hi 0 0%Q Hpos ltac:(intros; inw) Ci) A1 e He).
        * pose proof (initial_value e0 0 0%Q Hpos Se0) as V. unfold env in V. rewrite V, B1. ring.
      + intros el i H1 H2. rewrite Lx in H2. destruct (Nat.eq_dec i n) as [->|Hn]; [apply B2; exact H1|].
        apply A2; [exact H1 | fold m; fold n; lia].
      + intros el tau i s e H1 H2 H3. rewrite same_step. rewrite Ed in H3. destruct (Nat.lt_ge_cases i (length di)) as [Hi|Hi].
        * rewrite nth_error_app1 in H3 by exact Hi. destruct (Forall2_nth_r _ _ _ _ _ _ _ Di H3) as [[s' oe] [H4 [H5 H6]]]. cbn [fst snd] in H5, H6.
          destruct oe as [e'|]; [|contradiction].
          assert (V : (eval F (env el tau) e == eval F (uenv el tau) e')%Q).
          { apply steered_value; [exact H1 | | exact H6]. intros z Hz. apply (Hfresh e' z); [|exact Hz]. apply (ode_written s'). exact (nth_error_In _ _ H4). }
          unfold env, uenv in V. rewrite V. exact (A3 el tau i s' e' H1 H2 H4).
        * rewrite nth_error_app2 in H3 by exact Hi. destruct (i - length di) as [|z] eqn:Ez; [|destruct z; discriminate]. cbn in H3.
          assert (i = n) by lia. subst i. assert (e = l0) by congruence. subst e.
          pose proof (Ll el tau H1) as V. unfold env, uenv in V. rewrite V. exact (B3 el tau H1 H2).
      + intros el tau H1 H2 H3. apply (proj2 (vanish_iff (m_alg m) (m_alg (k_model k)) el tau H1 ltac:(intros; inw) Calg)).
        apply A4; [exact H1 | exact H2 |]. fold m. unfold k_model in H3. rewrite Ey in H3. exact H3.
      + intros el i lo hi0 H1 H2 H3. apply (A5 el i); [exact H1 | rewrite <- Edu1; exact H2 | rewrite <- Edu2; exact H3].
      + intros el j g w tau H1 H2 H3 H4. destruct (constraint_values' (o_g_ineq o) (o_g_ineq (k_problem k)) j g el tau H1 ltac:(intros; inw) Cineq H2) as [g' [H5 V]].
        unfold env, uenv in V. rewrite V. apply (A6 el j g' w tau H1 H5); [rewrite <- Ew1; exact H3 | exact H4].
      + intros el j g w tau H1 H2 H3 H4. destruct (constraint_values' (o_g_eq o) (o_g_eq (k_problem k)) j g el tau H1 ltac:(intros; inw) Ceq H2) as [g' [H5 V]].
        unfold env, uenv in V. rewrite V. apply (A7 el j g' w tau H1 H5); [rewrite <- Ew2; exact H3 | exact H4].
      + apply (proj2 (vanish_iff (o_h_final o) (o_h_final (k_problem k)) (k_elements k - 1) 1%Q ltac:(lia) ltac:(intros; inw) Cfin) A8).
      + apply (proj2 (vanish_iff (o_h o) (o_h (k_problem k)) (k_elements k - 1) 1%Q ltac:(lia) ltac:(intros; inw) Ch) A9).
  Qed.

  Lemma final_value : forall e e' el tau, el < k_elements k -> In e (written o) ->
      steered F m upts par (EBin OAdd e (EVar x_c)) e' ->
      (eval F (env el tau) e' == eval F (uenv el tau) e + poly (q_x q el n) tau)%Q.
  Proof.
    intros e e' el tau Hel He S. destruct (point_values el tau Hel) as [_ [E [E1 E2]]]. rewrite (S (env el tau) (c el)).
    - cbn [eval binop_eval]. apply Qplus_comp.
      + rewrite (eval_ext F _ (uenv el tau) e); [reflexivity|]. intros s Hs. apply agree; [exact Hel|]. intros I. exact (Hfresh e s He I Hs).
      + unfold with_controls. rewrite assign_notin by (apply not_a_control; left; reflexivity). rewrite E1. reflexivity.
    - rewrite E. apply Hc, Hel.
  Qed.

  Theorem cost_eq : forall l v w v' w' b, o_L o = [l] -> o_V o = [v] -> o_S o = [w] -> length (m_ode m) = n ->
      o_V (k_problem k) = [v'] -> o_S (k_problem k) = [w'] -> collocated F k q pts -> exact_rule pts b ->
      (trajectory_cost F k q v' w' == user_cost F o (k_elements k) q c v l w pts b + nth n (q_x0 q) 0)%Q.
  Proof.
    intros l v w v' w' b El Ev Ew Hode Ev' Ew' Hcol [Lb Hb].
    apply (collocated_iff l El Hode) in Hcol. destruct Hcol as [_ [B1 B2 B3]].
    destruct (pr_costs _ _ _ _ _ _ P) as [v0 [v1 [E0 [E1 [S1 S2]]]]].
    assert (v0 = v) by congruence. assert (v1 = v') by congruence. subst v0 v1.
    rewrite Ew, Ew' in S2. inversion S2 as [|? ? ? ? Sw _]; subst. clear S2. fold m in S1, Sw. fold (k_model k) in S1, Sw. fold par in S1, Sw.
    assert (Lx : length (m_x (k_model k)) = n + 1).
    { destruct (pr_states _ _ _ _ _ _ P) as [Ex _]. unfold k_model. rewrite Ex, app_length. reflexivity. }
    unfold trajectory_cost, user_cost.
    assert (Iv : In v (written o)) by (unfold written; rewrite Ev; rewrite !in_app_iff; right; left; left; reflexivity).
    pose proof (final_value v v' (k_elements k - 1) 1%Q ltac:(lia) Iv S1) as V. unfold env, uenv in V. rewrite V. clear V.
    assert (T : (poly (q_x q (k_elements k - 1) n) 1 == nth n (q_x0 q) 0 +
        qsum (map (fun el => user_step o (k_elements k) * qsum (map (fun tb => snd tb * eval F (uenv el (fst tb)) l) (combine pts b))) (seq 0 (k_elements k))))%Q).
    { rewrite (telescope (fun el => q_x q el n) (k_elements k - 1)) by (intros el Hel; apply B2; lia). rewrite B1.
      replace (S (k_elements k - 1)) with (k_elements k) by lia. apply Qplus_comp; [reflexivity|].
      apply (terms_ext (fun el => poly (q_x q el n) 1 - poly (q_x q el n) 0)%Q
        (fun el => user_step o (k_elements k) * qsum (map (fun tb => snd tb * eval F (uenv el (fst tb)) l) (combine pts b)))%Q).
      intros el Hel. rewrite (Hb (q_x q el n)) by (apply (fi_x _ _ _ Hq el n Hel); rewrite Lx; lia).
      rewrite !combine_terms by exact Lb. cbn [fst snd].
      assert (Hin : forall j, j < length pts -> In (nth j pts 0%Q) pts) by (intros j Hj; apply nth_In, Hj).
      assert (G : forall js, (forall j, In j js -> j < length pts) ->
        (qsum (map (fun j => nth j b 0 * poly (derivative (q_x q el n)) (nth j pts 0)) js) ==
         user_step o (k_elements k) * qsum (map (fun j => nth j b 0 * eval F (uenv el (nth j pts 0)) l) js))%Q).
      { induction js as [|j js IH]; intros Hjs; [cbn; ring|]. cbn [map qsum]. rewrite IH by (intros i Hi; apply Hjs; right; exact Hi).
        rewrite (B3 el (nth j pts 0%Q) Hel (Hin j (Hjs j (or_introl eq_refl)))). unfold uenv. ring. }
      apply G. intros j Hj. apply in_seq in Hj. lia. }
    unfold uenv in T. rewrite T.
    assert (W : (qsum (map (fun el => eval F (at_point k q el 1) w') (seq 0 (k_elements k))) ==
                 qsum (map (fun el => eval F (user_point o (k_elements k) q c el 1) w) (seq 0 (k_elements k))))%Q).
    { apply (terms_ext (fun el => eval F (at_point k q el 1) w') (fun el => eval F (user_point o (k_elements k) q c el 1) w)).
      intros el Hel. apply steered_value; [exact Hel | | exact Sw]. intros s Hs. apply (Hfresh w s); [|exact Hs].
      unfold written. rewrite Ew. rewrite !in_app_iff. right; right; left; left; reflexivity. }
    rewrite W. unfold uenv. ring.
  Qed.
End Agree.

(** ** Completing trajectories of the user *)

Lemma user_point_with_cost : forall o N q c g el tau,
    user_point o N (with_cost q (length (m_x (o_model o))) g) c el tau = user_point o N q c el tau.
Proof.
  intros o N q c g el tau. unfold user_point, with_cost. cbn [q_x q_y q_u q_p q_theta q_eta q_x0].
  f_equal. f_equal. f_equal. f_equal. apply map_ext_in. intros i Hi. apply in_seq in Hi.
  destruct (Nat.eqb_spec i (length (m_x (o_model o)))); [lia | reflexivity].
Qed.
Lemma user_collocated_with_cost : forall F o N q c g pts,
    user_collocated F o N q c pts -> length (m_ode (o_model o)) = length (m_x (o_model o)) ->
    user_collocated F o N (with_cost q (length (m_x (o_model o))) g) c pts.
Proof.
  intros F o N q c g pts [A1 A2 A3 A4 A5 A6 A7 A8 A9] Hode. constructor.
  - intros e He. rewrite user_point_with_cost. apply A1, He.
  - intros el i H1 H2. cbn [with_cost q_x]. destruct (Nat.eqb_spec i (length (m_x (o_model o)))); [lia|]. apply A2; assumption.
  - intros el tau i s e H1 H2 H3. rewrite user_point_with_cost. cbn [with_cost q_x].
    destruct (Nat.eqb_spec i (length (m_x (o_model o)))) as [E|E]; [|exact (A3 el tau i s e H1 H2 H3)].
    assert (i < length (m_ode (o_model o))) by (apply nth_error_Some; congruence). lia.
  - intros el tau H1 H2 H3 e He. rewrite user_point_with_cost. apply A4; assumption.
  - exact A5.
  - intros el j g0 w tau H1 H2 H3 H4. rewrite user_point_with_cost. exact (A6 el j g0 w tau H1 H2 H3 H4).
  - intros el j g0 w tau H1 H2 H3 H4. rewrite user_point_with_cost. exact (A7 el j g0 w tau H1 H2 H3 H4).
  - intros e He. rewrite user_point_with_cost. apply A8, He.
  - intros e He. rewrite user_point_with_cost. apply A9, He.
Qed.
Lemma user_cost_with_cost : forall F o N q c g v l w pts b,
    user_cost F o N (with_cost q (length (m_x (o_model o))) g) c v l w pts b = user_cost F o N q c v l w pts b.
Proof.
  intros F o N q c g v l w pts b. unfold user_cost. f_equal; [f_equal|].
  - rewrite user_point_with_cost. reflexivity.
  - f_equal. apply map_ext. intros el. rewrite user_point_with_cost. reflexivity.
  - f_equal. apply map_ext. intros el. f_equal. f_equal. apply map_ext. intros tb. rewrite user_point_with_cost. reflexivity.
Qed.
Lemma fits_with_cost : forall k pts q n g, fits k pts q -> (forall el, length (g el) <= S (length pts)) -> fits k pts (with_cost q n g).
Proof.
  intros k pts q n g [A B C D E] Hg. constructor; try assumption.
  intros el i H1 H2. cbn [with_cost q_x]. destruct (Nat.eqb i n); [apply Hg | apply A; assumption].
Qed.

Theorem completion : forall F pts upts x_c x_c0 o k q c l,
    prepared F upts x_c x_c0 o (k_problem k) ->
    NoDup (user_symbols o ++ x_c :: x_c0 :: m_u_par (k_model k)) ->
    length (m_x_0 (o_model o)) = length (m_x (o_model o)) -> fits k pts q -> 0 < k_elements k ->
    (forall el, el < k_elements k -> through upts (length (m_u (o_model o))) (q_u q el) (c el)) ->
    (forall e s, In e (written o) -> In s (x_c :: x_c0 :: m_u_par (k_model k)) -> ~ mentions e s) ->
    o_L o = [l] -> length (m_ode (o_model o)) = length (m_x (o_model o)) -> distinct pts ->
    user_collocated F o (k_elements k) q c pts ->
    exists g, (forall el, length (g el) <= S (length pts)) /\
      collocated F k (with_cost q (length (m_x (o_model o))) g) pts.
Proof.
  intros F pts upts x_c x_c0 o k q c l P Hsym Hx0 Hq Hpos Hc Hfresh El Hode Hd Hu.
  destruct (accumulated pts (fun el tau => (user_step o (k_elements k) * eval F (user_point o (k_elements k) q c el tau) l)%Q)
    (nth (length (m_x (o_model o))) (q_x0 q) 0%Q) (k_elements k - 1) Hd) as [g [A [B [C D]]]].
  exists g. split; [exact A|].
  apply (collocated_iff F pts upts x_c x_c0 o k (with_cost q (length (m_x (o_model o))) g) c P Hsym Hx0
    (fits_with_cost _ _ _ _ _ Hq A) Hpos Hc Hfresh l El Hode).
  split; [apply user_collocated_with_cost; assumption|]. constructor.
  - cbn [with_cost q_x q_x0]. rewrite Nat.eqb_refl. exact B.
  - intros el Hel. cbn [with_cost q_x]. rewrite Nat.eqb_refl. apply C. lia.
  - intros el tau Hel Ht. rewrite user_point_with_cost. cbn [with_cost q_x]. rewrite Nat.eqb_refl. apply D; [lia | exact Ht].
Qed.

(** ** Controls *)

Lemma controls_exist : forall upts n par, distinct upts -> length par = length upts * n ->
    exists c, through upts n par c.
Proof.
  intros upts n par Hd L.
  destruct (finite_choice (list Q) [] (fun i c => (length c <= length upts) /\
     forall j tau v, nth_error upts j = Some tau -> nth_error par (j * n + i) = Some v -> (poly c tau == v)%Q) n) as [c Hc].
  - intros i Hi. destruct (interpolant upts (fun j => nth (j * n + i) par 0%Q) Hd) as [e [Le He]]. exists e. split; [exact Le|].
    intros j tau v Ht Hv. assert (Hj : j < length upts) by (apply nth_error_Some; congruence).
    pose proof (He j Hj) as E. rewrite (nth_error_nth _ _ 0%Q Ht), (nth_error_nth _ _ 0%Q Hv) in E. exact E.
  - exists c. exact Hc.
Qed.
Lemma controls_unique : forall upts n par c c' i t, distinct upts -> length par = length upts * n ->
    through upts n par c -> through upts n par c' -> i < n -> (poly (c i) t == poly (c' i) t)%Q.
Proof.
  intros upts n par c c' i t Hd L H H' Hi. destruct (H i Hi) as [A B]. destruct (H' i Hi) as [A' B'].
  apply (interpolation_unique upts); try assumption. intros r Hr. apply In_nth_error in Hr. destruct Hr as [j Ej].
  assert (Hj : j < length upts) by (apply nth_error_Some; congruence).
  destruct (nth_error par (j * n + i)) as [v|] eqn:Ev; [|apply nth_error_None in Ev; nia].
  rewrite (B j r v Ej Ev), (B' j r v Ej Ev). reflexivity.
Qed.

(** Updated multipliers and the problem of the user. *)
From Coq Require Import String Qabs Lqa Setoid.
From Verif Require Import Base BaseProofs UtilModel UtilProofs ExprModel ExprProofs NlpModel NlpSpec SysModel SysSpec SysProofs
   OcpModel OcpSpec LagModel LagSpec LagProofs DiscModel DiscSpec DiscProofs ColSpec ColEvalProofs ColPolyProofs ColTopProofs
   DirSpec DirProofs DirColProofs DirTopProofs AugModel AugSpec AugRelaxProofs AugLoopProofs AugMoreProofs AlsSpec AlsRelaxProofs AlsProofs
   AlsMoveProofs AlsTopProofs IndSpec IndCalcProofs MulSpec.
Local Open Scope list_scope.
Local Open Scope nat_scope.

(** ** One point *)

Definition lifted (nu mu g : list Q) : list Q :=
  map (fun x => fst (fst x) + snd (fst x) * snd x)%Q (combine (combine nu mu) g).
Definition gap (g2 g : list Q) : list Q := map (fun xy => (fst xy - snd xy) * (fst xy - snd xy))%Q (combine g2 g).
Lemma point_identity : forall nu mu nu2 mu2 g g2, Forall2 Qeq nu2 nu -> Forall2 Qeq mu2 mu ->
    length nu = length g -> length mu = length g -> length g2 = length g ->
    (penalty_value nu2 mu2 g2 - penalty_value nu mu g ==
     dot (lifted nu mu g) g2 - dot (lifted nu mu g) g + (1 # 2) * dot mu (gap g2 g))%Q.
Proof.
  intros nu. induction nu as [|n nu IH]; intros mu nu2 mu2 g g2 Hn Hm L1 L2 L3.
  - destruct g; [|discriminate]. destruct g2; [|discriminate]. destruct mu; [|discriminate]. inversion Hn; inversion Hm; subst.
    unfold penalty_value. cbn. ring.
  - destruct g as [|x g]; [discriminate|]. destruct mu as [|m mu]; [discriminate|]. destruct g2 as [|y g2]; [discriminate|].
    inversion Hn as [|n2 ? nu2' ? En Hn']; subst. inversion Hm as [|m2 ? mu2' ? Em Hm']; subst.
    specialize (IH mu nu2' mu2' g g2 Hn' Hm' ltac:(cbn in L1; lia) ltac:(cbn in L2; lia) ltac:(cbn in L3; lia)).
    unfold penalty_value, lifted, gap in *. cbn [combine map fst snd dot]. rewrite En, Em. lra.
Qed.

(** ** Sums *)
Lemma qsum_minus : forall (A : Type) (f h : A -> Q) l, (qsum (map f l) - qsum (map h l) == qsum (map (fun a => f a - h a) l))%Q.
Proof. intros A f h l. induction l as [|a l IH]; [reflexivity|]. cbn [map qsum]. rewrite <- IH. ring. Qed.
Lemma qsum_same : forall (A : Type) (f h : A -> Q) l, (forall a, In a l -> f a == h a)%Q -> (qsum (map f l) == qsum (map h l))%Q.
Proof.
  intros A f h l. induction l as [|a l IH]; intros H; [reflexivity|]. cbn [map qsum]. rewrite (H a) by (left; reflexivity).
  rewrite IH; [reflexivity|]. intros x Hx. apply H. right. exact Hx.
Qed.
Definition total (step : Q) (N : nat) (tbs : list (Q * Q)) (f : nat -> Q -> Q) : Q :=
  qsum (map (fun el => step * qsum (map (fun tb => snd tb * f el (fst tb)) tbs)) (seq 0 N))%Q.
Lemma total_combines : forall step (N : nat) (tbs : list (Q * Q)) (f h u v w : nat -> Q -> Q), (forall el tb, (el < N)%nat -> In tb tbs ->
      f el (fst tb) - h el (fst tb) == u el (fst tb) - v el (fst tb) + w el (fst tb))%Q ->
    (total step N tbs f - total step N tbs h == total step N tbs u - total step N tbs v + total step N tbs w)%Q.
Proof.
  intros step N tbs f h u v w H. unfold total.
  assert (E : forall el, In el (seq 0 N) ->
     (qsum (map (fun tb => snd tb * f el (fst tb)) tbs) - qsum (map (fun tb => snd tb * h el (fst tb)) tbs) ==
      qsum (map (fun tb => snd tb * u el (fst tb)) tbs) - qsum (map (fun tb => snd tb * v el (fst tb)) tbs)
      + qsum (map (fun tb => snd tb * w el (fst tb)) tbs))%Q).
  { intros el Hel. apply in_seq in Hel. assert (Hlt : el < N) by lia. specialize (fun tb => H el tb Hlt). clear Hel Hlt.
    induction tbs as [|tb tbs IH]; [reflexivity|]. cbn [map qsum].
    pose proof (H tb (or_introl eq_refl)) as H1. specialize (IH (fun t Ht => H t (or_intror Ht))). clear H. 
    assert (snd tb * f el (fst tb) - snd tb * h el (fst tb) == snd tb * (u el (fst tb) - v el (fst tb) + w el (fst tb)))%Q by (rewrite <- H1; ring).
    lra. }
  revert E. generalize (seq 0 N). intros l. induction l as [|el l IH]; intros E; [reflexivity|]. cbn [map qsum].
  pose proof (E el (or_introl eq_refl)) as E1. specialize (IH (fun t Ht => E t (or_intror Ht))). clear E H.
  set (a := qsum (map (fun tb => snd tb * f el (fst tb))%Q tbs)) in *. set (a1 := qsum (map (fun tb => snd tb * h el (fst tb))%Q tbs)) in *.
  set (a2 := qsum (map (fun tb => snd tb * u el (fst tb))%Q tbs)) in *. set (a3 := qsum (map (fun tb => snd tb * v el (fst tb))%Q tbs)) in *.
  set (a4 := qsum (map (fun tb => snd tb * w el (fst tb))%Q tbs)) in *.
  assert (step * a - step * a1 == step * (a2 - a3 + a4))%Q by (rewrite <- E1; ring). lra.
Qed.

Section Exact.
  Variables (F : nat -> Q -> Q) (same : expr -> expr -> bool) (points : nat -> list Q) (dfun : nat -> expr -> expr)
    (opts : al_options) (rq : request) (o : ocp) (c : sym) (rx : relaxing)
    (k : method) (c0 : sym) (nl : nlp) (s : par_syms) (r : traj sym) (x_c x_c0 first : sym).
  Let o' := rx_problem rx.
  Let vidx := freed o rq.
  Let N := k_elements k.
  Let pts := points (k_degree k).
  Let upts := points (k_degree_control k).
  Let g := rx_alg rx ++ rx_eq rx.
  Hypothesis HF : respects F.
  Hypothesis HR : relaxation same points opts rq o c rx.
  Hypothesis HD : direct_setting points dfun k c0 nl s r o' x_c x_c0 first.
  Hypothesis Hdeg : al_degree opts = k_degree k.

  Lemma u_relaxes : relaxes F pts (al_mu_0 opts) g o rx.
  Proof.
    destruct HR as [Hs [[R1 R1'] R2 R3 R4 R5 R6 [R7 R7'] R8 R9 R10] [[P1 P2] P3 [P4 P5]] Hr].
    assert (Old : older o c).
    { destruct R5 as [O1 O2]. split; [|exact O2]. intros e v He Hv. apply (O1 e v); [|exact Hv].
      unfold written. repeat (apply in_app_iff in He; destruct He as [He|He]); repeat rewrite in_app_iff; auto 12. }
    destruct (relax_ok F same points opts rq o c rx Hs R1 R1' R7' Old P1 P2 P3 P4 P5 Hr)
      as [ga [ge [x [y [_ [Pe [Px [Ly [_ [_ [R [Ea Ee]]]]]]]]]]]].
    assert (E : ga ++ ge ++ copies y x = g).
    { unfold g. rewrite Ea, Ee. rewrite R10 in Px. unfold picks in Px. cbn [map] in Px. destruct x; [|discriminate].
      destruct y; [|discriminate]. cbn [copies combine map]. rewrite !app_nil_r. reflexivity. }
    rewrite E in R. unfold pts. rewrite <- Hdeg. exact R.
  Qed.

  (** Weights and multipliers at a point are parameters. *)
  Lemma u_point : forall q c' el tau, fits k pts q -> el < N ->
      let env := user_point o' N q c' el tau in
      env (m_tau (o_model o')) = tau /\ map env (m_p (o_model o')) = q_p q /\ map env (m_theta (o_model o')) = q_theta q el.
  Proof.
    intros q c' el tau Hq Hel. pose proof (t_sizes F same points dfun opts rq o c rx k c0 nl s r x_c x_c0 first HF HR HD q Hq) as Z.
    fold o' N upts in Z. destruct Z as [Z1 [Z2 _]]. specialize (Z2 el Hel).
    pose proof (t_symbols points dfun rx k c0 nl s r x_c x_c0 first HD) as ND. fold o' in ND.
    cbv zeta. unfold user_point, user_symbols in *. set (m := o_model o') in *.
    set (T := user_step o' N) in *. set (vt := (T * inject_Z (Z.of_nat el) + T * tau)%Q).
    set (VX := map (fun i => poly (q_x q el i) tau) (seq 0 (length (m_x m)))).
    set (VY := map (fun i => poly (q_y q el i) tau) (seq 0 (length (m_y m)))).
    set (VU := map (fun i => poly (c' el i) tau) (seq 0 (length (m_u m)))).
    assert (LX : length (m_x m) = length VX) by (unfold VX; rewrite map_length, seq_length; reflexivity).
    assert (LY : length (m_y m) = length VY) by (unfold VY; rewrite map_length, seq_length; reflexivity).
    assert (LU : length (m_u m) = length VU) by (unfold VU; rewrite map_length, seq_length; reflexivity).
    split; [|split].
    - apply (assign_nth _ _ _ 1); [exact ND|reflexivity|reflexivity].
    - pose proof (assign_block (fun _ => 0%Q) ([m_t m; m_tau m] ++ m_x m ++ m_y m ++ m_u m) (m_p m)
        (m_theta m ++ m_x_0 m ++ o_eta o') ([vt; tau] ++ VX ++ VY ++ VU) (q_p q)
        (q_theta q el ++ firstn (length (m_x m)) (q_x0 q) ++ q_eta q)) as B.
      repeat rewrite <- app_assoc in B. apply B; [exact ND| |symmetry; exact Z1].
      repeat rewrite app_length. rewrite LX, LY, LU. reflexivity.
    - pose proof (assign_block (fun _ => 0%Q) ([m_t m; m_tau m] ++ m_x m ++ m_y m ++ m_u m ++ m_p m) (m_theta m)
        (m_x_0 m ++ o_eta o') ([vt; tau] ++ VX ++ VY ++ VU ++ q_p q) (q_theta q el)
        (firstn (length (m_x m)) (q_x0 q) ++ q_eta q)) as B.
      repeat rewrite <- app_assoc in B. apply B; [exact ND| |symmetry; exact Z2].
      repeat rewrite app_length. rewrite LX, LY, LU, Z1. reflexivity.
  Qed.

  Lemma u_weights : forall q c', fits k pts q -> forall el tau, el < N ->
      weights_at rx N q c' el tau = skipn (length (m_p (o_model o))) (q_p q).
  Proof.
    intros q c' Hq el tau Hel. destruct (u_point q c' el tau Hq Hel) as [_ [E _]].
    pose proof (re_p _ _ _ _ _ _ u_relaxes) as Ep. fold o' in Ep. rewrite Ep in E. rewrite map_app in E. unfold weights_at. fold o'. rewrite <- E.
    rewrite skipn_app, map_length, Nat.sub_diag. rewrite skipn_all2 by (rewrite map_length; lia). reflexivity.
  Qed.
  Lemma u_multiplier : forall q c', fits k pts q -> forall el j tau i e, el < N -> nth_error pts j = Some tau ->
      nth_error (rx_nu_pol rx) i = Some e ->
      (eval F (user_point o' N q c' el tau) e == nth (length (m_theta (o_model o)) + (j * length g + i)) (q_theta q el) 0)%Q.
  Proof.
    intros q c' Hq el j tau i e Hel Hj Hi. destruct (u_point q c' el tau Hq Hel) as [Et [_ E]].
    pose proof u_relaxes as R. pose proof (re_theta _ _ _ _ _ _ R) as Eth. fold o' in Eth. rewrite Eth, map_app in E.
    assert (Li : i < length g) by (rewrite <- (re_pol _ _ _ _ _ _ R); apply nth_error_Some; congruence).
    assert (Lj : j < length pts) by (apply nth_error_Some; congruence).
    assert (Lv : j * length g + i < length (rx_nu_par rx)) by (rewrite (re_par _ _ _ _ _ _ R); nia).
    destruct (nth_error (rx_nu_par rx) (j * length g + i)) as [v|] eqn:Ev; [|apply nth_error_None in Ev; lia].
    rewrite (re_value _ _ _ _ _ _ R (user_point o' N q c' el tau) i j tau e v Hj Hi Ev).
    - rewrite <- E. rewrite app_nth2 by (rewrite map_length; lia). rewrite map_length.
      replace (length (m_theta (o_model o)) + (j * length g + i) - length (m_theta (o_model o))) with (j * length g + i) by lia.
      apply (map_nth_error (user_point o' N q c' el tau)) in Ev. rewrite (nth_error_nth _ _ 0%Q Ev). reflexivity.
    - rewrite <- (re_tau _ _ _ _ _ _ R). fold o'. rewrite Et. reflexivity.
  Qed.
  Lemma u_multipliers : forall q c' q2 c2', fits k pts q -> fits k pts q2 -> same_parameters N q q2 ->
      forall el tau, el < N -> In tau pts ->
      Forall2 Qeq (multipliers_at F rx N q2 c2' el tau) (multipliers_at F rx N q c' el tau) /\
      Forall2 Qeq (weights_at rx N q2 c2' el tau) (weights_at rx N q c' el tau).
  Proof.
    intros q c' q2 c2' Hq Hq2 [Sp St] el tau Hel Ht. split.
    - apply In_nth_error in Ht. destruct Ht as [j Hj]. unfold multipliers_at. fold o'.
      apply Forall2_nth_intro; [rewrite !map_length; reflexivity|]. intros i x y Hx Hy.
      rewrite nth_error_map in Hx, Hy. destruct (nth_error (rx_nu_pol rx) i) as [e|] eqn:Ee; [|discriminate].
      injection Hx as <-. injection Hy as <-.
      rewrite (u_multiplier q2 c2' Hq2 el j tau i e Hel Hj Ee), (u_multiplier q c' Hq el j tau i e Hel Hj Ee), (St el Hel). reflexivity.
    - rewrite (u_weights q2 c2' Hq2 el tau Hel), (u_weights q c' Hq el tau Hel), Sp.
      generalize (skipn (length (m_p (o_model o))) (q_p q)). intros l. induction l; constructor; [reflexivity|assumption].
  Qed.

  Theorem u_exact : forall l v w b, o_L o = [l] -> o_V o = [v] -> o_S o = [w] ->
      exists l', o_L o' = [l'] /\ o_V o' = [v] /\ o_S o' = [w] /\
      forall q1 c1 q' c' q2 c2 q2' c2', fits k pts q' -> fits k pts q2' ->
        same_trajectory o vidx N q1 c1 q' c' -> same_trajectory o vidx N q2 c2 q2' c2' -> same_parameters N q' q2' ->
        let nu := raised F rx N q' c' in
        (user_cost F o' N q2' c2' v l' w pts b - user_cost F o' N q' c' v l' w pts b ==
         (user_cost F o N q2 c2 v l w pts b + multiplied_total F rx N q2' c2' nu pts b)
         - (user_cost F o N q1 c1 v l w pts b + multiplied_total F rx N q' c' nu pts b)
         + moved_total F rx N q' c' q2' c2' pts b)%Q.
  Proof.
    intros l v w b El Ev Ew.
    destruct (t_cost F same points dfun opts rq o c rx k c0 nl s r x_c x_c0 first HF HR HD l v w b El Ev Ew) as [l' [E1 [E2 [E3 H]]]].
    exists l'. split; [exact E1|]. split; [exact E2|]. split; [exact E3|].
    intros q1 c1 q' c' q2 c2 q2' c2' Hq Hq2 HS HS2 HP nu.
    pose proof (H q1 c1 q' c' Hq HS) as X1. pose proof (H q2 c2 q2' c2' Hq2 HS2) as X2.
    fold o' N pts g in X1, X2. rewrite X1, X2. clear X1 X2 H.
    assert (T : (penalty_total F o' N q2' c2' (rx_nu_pol rx) (rx_mu_sym rx) g pts b - penalty_total F o' N q' c' (rx_nu_pol rx) (rx_mu_sym rx) g pts b ==
                 multiplied_total F rx N q2' c2' nu pts b - multiplied_total F rx N q' c' nu pts b + moved_total F rx N q' c' q2' c2' pts b)%Q).
    { apply (total_combines (user_step o' N) N (combine pts b)
         (fun el tau => penalty_value (multipliers_at F rx N q2' c2' el tau) (weights_at rx N q2' c2' el tau) (equations_at F rx N q2' c2' el tau))
         (fun el tau => penalty_value (multipliers_at F rx N q' c' el tau) (weights_at rx N q' c' el tau) (equations_at F rx N q' c' el tau))
         (fun el tau => dot (nu el tau) (equations_at F rx N q2' c2' el tau))
         (fun el tau => dot (nu el tau) (equations_at F rx N q' c' el tau))
         (fun el tau => ((1 # 2) * dot (weights_at rx N q' c' el tau) (gap (equations_at F rx N q2' c2' el tau) (equations_at F rx N q' c' el tau)))%Q)).
      intros el [tau wt] Hel Hin. cbn [fst]. apply in_combine_l in Hin.
      destruct (u_multipliers q' c' q2' c2' Hq Hq2 HP el tau Hel Hin) as [Fm Fw]. pose proof u_relaxes as R.
      apply point_identity; [exact Fm|exact Fw| | |]; unfold multipliers_at, weights_at, equations_at; rewrite !map_length; fold g.
      - exact (re_pol _ _ _ _ _ _ R).
      - exact (re_weights _ _ _ _ _ _ R).
      - reflexivity. }
    lra.
  Qed.
End Exact.

(** ** First-order changes *)

Lemma derivative_square : forall f x a, has_derivative f x a -> has_derivative (fun t => (f t - f x) * (f t - f x))%Q x 0%Q.
Proof.
  intros f x a H.
  assert (D : has_derivative (fun t => f t - f x)%Q x (a - 0)%Q) by (apply derivative_sub; [exact H|apply derivative_const]).
  pose proof (derivative_mul _ _ _ _ _ D D) as M. cbn beta in M.
  apply (derivative_ext _ _ _ _ 0%Q (fun t => Qeq_refl _)) in M; [exact M|ring].
Qed.
Lemma derivative_nothing_scale : forall f x a, has_derivative f x 0%Q -> has_derivative (fun t => a * f t)%Q x 0%Q.
Proof.
  intros f x a H. apply (derivative_ext (fun t => a * f t)%Q _ x (a * 0)%Q); [reflexivity|ring|]. apply derivative_scale, H.
Qed.
Lemma derivative_nothing_add : forall f h x, has_derivative f x 0%Q -> has_derivative h x 0%Q -> has_derivative (fun t => f t + h t)%Q x 0%Q.
Proof.
  intros f h x H1 H2. apply (derivative_ext (fun t => f t + h t)%Q _ x (0 + 0)%Q); [reflexivity|ring|]. apply derivative_add; assumption.
Qed.
Lemma derivative_nothing_sum : forall (A : Type) (f : A -> Q -> Q) l x, (forall a, In a l -> has_derivative (f a) x 0%Q) ->
    has_derivative (fun t => qsum (map (fun a => f a t) l)) x 0%Q.
Proof.
  intros A f l x. induction l as [|a l IH]; intros H; [exact (derivative_const 0%Q x)|]. cbn [map qsum].
  apply (derivative_nothing_add (f a) (fun t => qsum (map (fun b => f b t) l))); [apply H; left; reflexivity|]. apply IH. intros b Hb. apply H. right. exact Hb.
Qed.
Lemma derivative_gap : forall (A : Type) (val : A -> Q -> Q) (l : list A) mu, (forall a, In a l -> exists d, has_derivative (val a) 0%Q d) ->
    has_derivative (fun t => dot mu (gap (map (fun a => val a t) l) (map (fun a => val a 0%Q) l))) 0%Q 0%Q.
Proof.
  intros A val l. unfold gap. induction l as [|a l IH]; intros mu H; destruct mu as [|m mu]; cbn [map combine dot fst snd]; try exact (derivative_const 0%Q 0%Q).
  apply (derivative_nothing_add (fun t => m * ((val a t - val a 0) * (val a t - val a 0)))%Q (fun t => dot mu (map _ (combine (map (fun a => val a t) l) (map (fun a => val a 0%Q) l))))).
  - apply derivative_nothing_scale. destruct (H a (or_introl eq_refl)) as [d Hd]. exact (derivative_square _ _ _ Hd).
  - apply IH. intros b Hb. apply H. right. exact Hb.
Qed.
Lemma derivative_shift : forall A B h : Q -> Q, (forall t, A t - A 0 == B t - B 0 + h t)%Q -> has_derivative h 0%Q 0%Q ->
    forall D, has_derivative A 0%Q D <-> has_derivative B 0%Q D.
Proof.
  intros A B h E Hh D. split; intros H.
  - pose proof (derivative_sub _ _ _ _ _ H Hh) as H1.
    pose proof (derivative_add _ _ _ _ _ H1 (derivative_const (B 0%Q - A 0%Q)%Q 0%Q)) as H2. cbn beta in H2.
    apply (derivative_ext _ B _ _ D) in H2; [exact H2| |ring]. intros t. specialize (E t). lra.
  - pose proof (derivative_add _ _ _ _ _ H Hh) as H1.
    pose proof (derivative_add _ _ _ _ _ H1 (derivative_const (A 0%Q - B 0%Q)%Q 0%Q)) as H2. cbn beta in H2.
    apply (derivative_ext _ A _ _ D) in H2; [exact H2| |ring]. intros t. specialize (E t). lra.
Qed.

Lemma moved_nothing : forall F o rq rx k pts q c q' c' b, variation F o rq rx k pts q c q' c' ->
    has_derivative (fun t => moved_total F rx (k_elements k) (q' 0%Q) (c' 0%Q) (q' t) (c' t) pts b) 0%Q 0%Q.
Proof.
  intros F o rq rx k pts q c q' c' b V. unfold moved_total.
  apply (derivative_nothing_sum _ (fun el t => _)). intros el Hel. apply in_seq in Hel. apply derivative_nothing_scale.
  apply (derivative_nothing_sum _ (fun tb t => _)). intros [tau wt] Htb. cbn [fst snd]. apply in_combine_l in Htb.
  apply derivative_nothing_scale, derivative_nothing_scale. unfold equations_at.
  apply (derivative_gap _ (fun g t => eval F (user_point (rx_problem rx) (k_elements k) (q' t) (c' t) el tau) g)).
  intros g Hg. apply (va_smooth _ _ _ _ _ _ _ _ _ _ V el tau g); [lia|exact Htb|exact Hg].
Qed.

Lemma w_C90_exact : forall F same points dfun opts rq o c rx k c0 nl s r x_c x_c0 first l v w b,
    respects F -> relaxation same points opts rq o c rx ->
    direct_setting points dfun k c0 nl s r (rx_problem rx) x_c x_c0 first -> al_degree opts = k_degree k ->
    o_L o = [l] -> o_V o = [v] -> o_S o = [w] ->
    let N := k_elements k in let pts := points (k_degree k) in
    exists l', o_L (rx_problem rx) = [l'] /\ o_V (rx_problem rx) = [v] /\ o_S (rx_problem rx) = [w] /\
    forall q c1 q' c' q2 c2 q2' c2', fits k pts q' -> fits k pts q2' ->
      same_trajectory o (freed o rq) N q c1 q' c' -> same_trajectory o (freed o rq) N q2 c2 q2' c2' -> same_parameters N q' q2' ->
      let nu := raised F rx N q' c' in
      (user_cost F (rx_problem rx) N q2' c2' v l' w pts b - user_cost F (rx_problem rx) N q' c' v l' w pts b ==
       (user_cost F o N q2 c2 v l w pts b + multiplied_total F rx N q2' c2' nu pts b)
       - (user_cost F o N q c1 v l w pts b + multiplied_total F rx N q' c' nu pts b)
       + moved_total F rx N q' c' q2' c2' pts b)%Q.
Proof.
  intros F same points dfun opts rq o c rx k c0 nl s r x_c x_c0 first l v w b HF HR HD Hdeg El Ev Ew.
  exact (u_exact F same points dfun opts rq o c rx k c0 nl s r x_c x_c0 first HF HR HD Hdeg l v w b El Ev Ew).
Qed.
Lemma w_C90_first_order : forall F same points dfun opts rq o c rx k c0 nl s r x_c x_c0 first l v w b,
    respects F -> relaxation same points opts rq o c rx ->
    direct_setting points dfun k c0 nl s r (rx_problem rx) x_c x_c0 first -> al_degree opts = k_degree k ->
    o_L o = [l] -> o_V o = [v] -> o_S o = [w] ->
    let N := k_elements k in let pts := points (k_degree k) in
    exists l', o_L (rx_problem rx) = [l'] /\ o_V (rx_problem rx) = [v] /\ o_S (rx_problem rx) = [w] /\
    forall q c1 q' c', variation F o rq rx k pts q c1 q' c' ->
      let nu := raised F rx N (q' 0%Q) (c' 0%Q) in
      forall D, has_derivative (fun t => user_cost F (rx_problem rx) N (q' t) (c' t) v l' w pts b) 0%Q D <->
        has_derivative (fun t => user_cost F o N (q t) (c1 t) v l w pts b + multiplied_total F rx N (q' t) (c' t) nu pts b)%Q 0%Q D.
Proof.
  intros F same points dfun opts rq o c rx k c0 nl s r x_c x_c0 first l v w b HF HR HD Hdeg El Ev Ew N pts.
  destruct (w_C90_exact F same points dfun opts rq o c rx k c0 nl s r x_c x_c0 first l v w b HF HR HD Hdeg El Ev Ew) as [l' [E1 [E2 [E3 H]]]].
  exists l'. split; [exact E1|]. split; [exact E2|]. split; [exact E3|]. intros q c1 q' c' V nu.
  apply (derivative_shift _ _ (fun t => moved_total F rx N (q' 0%Q) (c' 0%Q) (q' t) (c' t) pts b)); [|exact (moved_nothing _ _ _ _ _ _ _ _ _ _ b V)].
  intros t. exact (H (q 0%Q) (c1 0%Q) (q' 0%Q) (c' 0%Q) (q t) (c1 t) (q' t) (c' t) (va_fits _ _ _ _ _ _ _ _ _ _ V 0%Q) (va_fits _ _ _ _ _ _ _ _ _ _ V t)
    (va_same _ _ _ _ _ _ _ _ _ _ V 0%Q) (va_same _ _ _ _ _ _ _ _ _ _ V t) (va_parameters _ _ _ _ _ _ _ _ _ _ V t)).
Qed.

(** ** What an update computes *)

Lemma prepared_controls : forall points d x_c x_c0 first o o', direct_prepare points d x_c x_c0 first o = (o', Ok tt) ->
    exists pol, create_variable_polynomial_approximation points (m_tau (o_model o')) (length (m_u (o_model o'))) d first false
      = Ok (pol, m_u_par (o_model o')) /\ m_u_expr (o_model o') = subst_vec pol (m_u (o_model o')) pol.
Proof.
  intros points d x_c x_c0 first o o' H. unfold direct_prepare in H. apply cbind_ok in H. destruct H as [o0 [[] [_ H]]].
  apply cbind_ok in H. destruct H as [o1 [[] [_ H]]]. unfold parametrize_controls in H.
  destruct (create_variable_polynomial_approximation points (m_tau (o_model o1)) (length (m_u (o_model o1))) d first false) as [[pol par]|] eqn:Ep; [|discriminate].
  apply replaced_problem in H. destruct H as [_ H]. cbv zeta in H. exists pol. rewrite H. split; [exact Ep|reflexivity].
Qed.

Lemma apart : forall (A : Type) (l l' : list A), NoDup (l ++ l') -> forall x, In x l -> In x l' -> False.
Proof.
  intros A l l'. induction l as [|a l IH]; intros H x Hx Hx'; [destruct Hx|]. inversion H as [|? ? Hn H']; subst.
  destruct Hx as [-> | Hx]; [apply Hn, in_app_iff; right; exact Hx'|exact (IH H' x Hx Hx')].
Qed.

Lemma both_entries : forall (A B : Type) (l : list A) (l' : list B) i x y, nth_error (combine l l') i = Some (x, y) ->
    nth_error l i = Some x /\ nth_error l' i = Some y.
Proof.
  intros A B l. induction l as [|u l IH]; intros [|v l'] i x y H; destruct i as [|i]; try discriminate H.
  - cbn in H. injection H as -> ->. split; reflexivity.
  - exact (IH l' i x y H).
Qed.

Section Update.
  Variables (F : nat -> Q -> Q) (same : expr -> expr -> bool) (points : nat -> list Q) (dfun : nat -> expr -> expr)
    (opts : al_options) (rq : request) (o : ocp) (c : sym) (rx : relaxing)
    (k : method) (c0 : sym) (nl : nlp) (s : par_syms) (r : traj sym) (x_c x_c0 first : sym).
  Let o' := rx_problem rx.
  Let N := k_elements k.
  Let pts := points (k_degree k).
  Let upts := points (k_degree_control k).
  Let g := rx_alg rx ++ rx_eq rx.
  Hypothesis HF : respects F.
  Hypothesis HR : relaxation same points opts rq o c rx.
  Hypothesis HD : direct_setting points dfun k c0 nl s r o' x_c x_c0 first.

  Lemma u_controls : forall q c' el tau, fits k pts q -> followed o' N upts q c' -> el < N ->
      Forall2 Qeq (map (eval F (at_point k q el tau)) (m_u_expr (k_model k)))
                  (map (fun i => poly (c' el i) tau) (seq 0 (length (m_u (o_model o'))))).
  Proof.
    intros q c' el tau Hq Hf Hel.
    pose proof (t_prepared F points dfun rx k c0 nl s r x_c x_c0 first HF HD) as P. fold o' upts in P.
    pose proof (t_elements F points dfun rx k c0 nl s r x_c x_c0 first HF HD) as HN. fold N in HN.
    destruct HD as [A1 A2 A3 A4 A5 A6 A7 A8]. destruct A4 as [Lup Incup]. fold upts in Lup.
    assert (Dup : distinct upts) by (apply (distinct_tail 0%Q), sorted_distinct, Incup).
    destruct (prepared_controls _ _ _ _ _ _ _ A5) as [pol [Ep Eu]]. fold (k_model k) in Ep, Eu.
    destruct (pr_same _ _ _ _ _ _ P) as [Es _]. cbv zeta in Es. injection Es as _ Emu _ _ _ Etau. fold (k_model k) in Emu, Etau.
    rewrite Emu, Etau in Ep. rewrite Emu in Eu.
    destruct (point_values F pts upts x_c x_c0 o' k q c' P (po_symbols _ _ A6) (po_initial _ _ A6) Hq HN el tau Hel) as [Vt [Vp _]].
    set (env := at_point k q el tau) in *. set (m := o_model o') in *. set (par := m_u_par (k_model k)) in *.
    assert (Th : through upts (length (m_u m)) (map env par) (c' el)) by (rewrite Vp; exact (Hf el Hel)).
    set (env' := DirSpec.with_controls m env (c' el)).
    assert (ND : NoDup (user_symbols o' ++ x_c :: x_c0 :: par)) by exact (po_symbols _ _ A6).
    assert (Out : forall v, ~ In v (m_u m) -> env' v = env v).
    { intros v Hv. unfold env', DirSpec.with_controls. apply assign_notin. exact Hv. }
    assert (Ot : env' (m_tau m) = tau).
    { rewrite Out; [exact Vt|]. apply NoDup_app_l in ND. unfold user_symbols in ND. fold m in ND. apply NoDup_cons_iff in ND. destruct ND as [_ ND].
      apply NoDup_cons_iff in ND. destruct ND as [Hn _]. intros I. apply Hn. rewrite !in_app_iff. auto. }
    assert (Op : map env' par = map env par).
    { apply map_ext_in. intros v Hv. apply Out. intros I.
      apply (apart _ _ _ ND v); [|right; right; exact Hv].
      unfold user_symbols. fold m. right. right. rewrite !in_app_iff. auto. }
    pose proof (fun i => control_value F points (m_tau m) (length (m_u m)) (k_degree_control k) first env' (c' el) i A3 Lup Dup) as V.
    assert (Lpol : length pol = length (m_u m)).
    { rewrite w_C08_method_approximation in Ep by auto.
      destruct (poly_size points (m_tau m) (length (m_u m)) (k_degree_control k) first A3) as [_ L].
      destruct (create_polynomial_approximation points (m_tau m) (length (m_u m)) (k_degree_control k) first false) as [pol' par'].
      injection Ep as -> _. exact L. }
    rewrite Eu. unfold subst_vec. rewrite map_map.
    apply Forall2_nth_intro; [rewrite !map_length, seq_length; exact Lpol|]. intros i x y Hx Hy.
    rewrite nth_error_map in Hx, Hy. destruct (nth_error pol i) as [e|] eqn:Ei; [|discriminate]. injection Hx as <-.
    assert (Hi : i < length (m_u m)) by (rewrite <- Lpol; apply nth_error_Some; congruence).
    rewrite (nth_error_nth' _ 0) in Hy by (rewrite seq_length; exact Hi). rewrite seq_nth in Hy by exact Hi. injection Hy as <-.
    rewrite (substituted F m points (k_degree_control k) first e pol par HF A3 Lup Dup Ep env (c' el) Th). fold env'.
    rewrite w_C08_method_approximation in Ep by auto. specialize (V i).
    destruct (create_polynomial_approximation points (m_tau m) (length (m_u m)) (k_degree_control k) first false) as [pol' par'].
    injection Ep as -> ->. rewrite Op in V. specialize (V Th Hi). rewrite (nth_error_nth _ _ (EConst 0) Ei) in V. rewrite V, Ot. reflexivity.
  Qed.

  Lemma u_value : forall q c' el tau e, fits k pts q -> followed o' N upts q c' -> el < N ->
      (forall v, In v (x_c :: x_c0 :: m_u_par (k_model k)) -> ~ mentions e v) ->
      (value_on F k q el tau e == eval F (user_point o' N q c' el tau) e)%Q.
  Proof.
    intros q c' el tau e Hq Hf Hel Hm. pose proof (u_controls q c' el tau Hq Hf Hel) as U.
    pose proof (t_prepared F points dfun rx k c0 nl s r x_c x_c0 first HF HD) as P. fold o' upts in P.
    pose proof (t_elements F points dfun rx k c0 nl s r x_c x_c0 first HF HD) as HN. fold N in HN.
    destruct HD as [A1 A2 A3 A4 A5 A6 A7 A8].
    destruct (pr_same _ _ _ _ _ _ P) as [Es _]. cbv zeta in Es. injection Es as _ Emu _ _ _ Etau. fold (k_model k) in Emu, Etau.
    destruct (point_values F pts upts x_c x_c0 o' k q c' P (po_symbols _ _ A6) (po_initial _ _ A6) Hq HN el tau Hel) as [Vt _].
    unfold value_on. cbv zeta.
    transitivity (eval F (DirSpec.with_controls (o_model o') (at_point k q el tau) (c' el)) e).
    - apply eval_ext_Qeq; [exact HF|]. intros v _. unfold DirSpec.with_controls. rewrite Vt, Emu. apply assign_Qeq, U.
    - rewrite (eval_ext F _ (user_point o' N q c' el tau) e); [reflexivity|]. intros v Hv.
      apply (DirColProofs.agree F pts upts x_c x_c0 o' k q c' P (po_symbols _ _ A6) (po_initial _ _ A6) Hq HN el tau v Hel).
      intros I. exact (Hm v I Hv).
  Qed.

  Hypothesis Hdeg : al_degree opts = k_degree k.
  Hypothesis Hopt : o_p_opt o = [] /\ o_theta_opt o = [].
  Hypothesis Hnew : forall e v, In e (written o) -> In v (x_c :: x_c0 :: m_u_par (k_model k)) -> ~ mentions e v.
  Variable vars : list sym.
  Hypothesis Hvars : NoDup vars.
  Let a := mkAugmented k vars (rx_alg rx) (rx_eq rx) (rx_mu_sym rx) (rx_nu_pol rx).
  Let own_p := m_p (o_model o).
  Let own_theta := m_theta (o_model o).

  Lemma u_carries : carries F pts a own_p own_theta.
  Proof.
    destruct HR as [Hs [[R1 R1'] R2 R3 R4 R5 R6 [R7 R7'] R8 R9 R10] [[P1 P2] P3 [P4 P5]] Hr].
    assert (Old : older o c).
    { destruct R5 as [O1 O2]. split; [|exact O2]. intros e v He Hv. apply (O1 e v); [|exact Hv].
      unfold written. repeat (apply in_app_iff in He; destruct He as [He|He]); repeat rewrite in_app_iff; auto 12. }
    destruct Hopt as [Hp Ht].
    destruct (relaxed_carries F same points opts rq o c rx (k_degree_control k) x_c x_c0 first (k_problem k) k vars Hs R1 R1' R7' Old Hp Ht
      P1 P2 P3 P4 P5 (or_intror R10) Hr (ds_prepared _ _ _ _ _ _ _ _ _ _ _ HD) eq_refl Hvars) as [C _].
    rewrite Hdeg in C. exact C.
  Qed.
  Lemma u_written : forall e, In e g -> In e (written o).
  Proof.
    intros e He. unfold g in He. apply in_app_iff in He.
    pose proof (t_alg F same points opts rq o c rx HR) as Pa. pose proof (t_eq F same points opts rq o c rx HR) as Pe.
    unfold written. rewrite !in_app_iff. destruct He as [He|He].
    - apply (picks_incl _ _ _ _ _ Pa) in He. auto 12.
    - apply (picks_incl _ _ _ _ _ Pe) in He. auto 12.
  Qed.
  Lemma u_reads_fit : forall st p th tr q, fitting a own_p own_theta st p th -> collocation_shape k tr ->
      reads k pts tr (given_p p ++ st_mu st) (fun el => given_in th el ++ nu_in st el) q -> fits k pts q.
  Proof.
    intros st p th tr q [G1 G2 G3 G4] Sh [Rx Ry Ru Rp Rt R0 _]. destruct u_carries as [_ _ Cmu Cw [par [Cth [Lpar _]]]].
    pose proof (ds_transcribable _ _ _ _ _ _ _ _ _ _ _ HD) as T. pose proof (ds_points _ _ _ _ _ _ _ _ _ _ _ HD) as [Lp _].
    change (ag_method a) with k in *. constructor.
    - intros el i Hel Hi. exact (proj1 (Rx el i Hel Hi)).
    - intros el Hel. destruct Sh as [_ [_ [[Lu Fu] _]]].
      destruct (nth_error (r_u tr) el) as [l|] eqn:El; [|apply nth_error_None in El; fold N in Hel; lia].
      rewrite (Ru el l El). rewrite Forall_forall in Fu. rewrite (DiscProofs.rows_concat_length _ _ _ _ (Fu l (nth_error_In _ _ El))).
      symmetry. exact (tr_controls _ T).
    - rewrite Rp, Cmu, !app_length, G1, G2, Cw. reflexivity.
    - intros el Hel. rewrite (Rt el Hel), Cth, !app_length, (G3 el Hel), Lpar. destruct (G4 el Hel) as [v [Ev Lv]].
      unfold nu_in. rewrite Ev, Lv. unfold pts. rewrite Lp. reflexivity.
    - rewrite R0. exact (tr_initial _ T).
  Qed.

  Theorem u_update : forall st p th tr q' c', fitting a own_p own_theta st p th -> collocation_shape k tr ->
      reads k pts tr (given_p p ++ st_mu st) (fun el => given_in th el ++ nu_in st el) q' -> followed o' N upts q' c' ->
      al_skip_compute opts = false -> al_skip_nu opts = false -> al_improve opts = false \/ st_last st = None ->
      forall st' errors, update_parameters F opts (create_nu_update_func points a) N p th (flatten tr) st = (st', Ok errors) ->
      exists d, st_nu_tilde st' = Some d /\
        forall el j tau i x, el < N -> nth_error pts j = Some tau -> nth_error (raised F rx N q' c' el tau) i = Some x ->
          exists y, multiplier d (relaxed_count a) el j i = Some y /\ (y == x)%Q.
  Proof.
    intros st p th tr q' c' Fi Sh Rd Hf S1 S2 S3 st' errors Hup.
    pose proof (u_reads_fit st p th tr q' Fi Sh Rd) as Hq.
    destruct (updated_multipliers F points opts a own_p own_theta HF (ds_transcribable _ _ _ _ _ _ _ _ _ _ _ HD)
      (ds_points _ _ _ _ _ _ _ _ _ _ _ HD) u_carries st p th tr q' Fi Sh Rd S1 st' errors Hup S2 S3) as [d [Ed [[_ [_ M]] _]]].
    exists d. split; [exact Ed|]. intros el j tau i x Hel Hj Hx.
    unfold raised in Hx. rewrite nth_error_map in Hx.
    destruct (nth_error (combine (combine (multipliers_at F rx N q' c' el tau) (weights_at rx N q' c' el tau)) (equations_at F rx N q' c' el tau)) i)
      as [[[n w] gv]|] eqn:Ei; [|discriminate]. cbn [option_map fst snd] in Hx. injection Hx as <-.
    apply both_entries in Ei. destruct Ei as [Ei Eg]. apply both_entries in Ei. destruct Ei as [En Ew].
    unfold equations_at in Eg. rewrite nth_error_map in Eg. fold g in Eg. destruct (nth_error g i) as [e|] eqn:Ee; [|discriminate].
    cbn [option_map] in Eg. injection Eg as <-.
    unfold multipliers_at in En. rewrite nth_error_map in En. destruct (nth_error (rx_nu_pol rx) i) as [pe|] eqn:Epe; [|discriminate].
    cbn [option_map] in En. injection En as <-.
    pose proof (u_weights F same points dfun opts rq o c rx k c0 nl s r x_c x_c0 first HF HR HD Hdeg q' c' Hq el tau Hel) as Vw.
    fold N in Vw. rewrite Vw in Ew.
    pose proof (u_multiplier F same points dfun opts rq o c rx k c0 nl s r x_c x_c0 first HF HR HD Hdeg q' c' Hq el j tau i pe Hel Hj Epe) as Vm.
    destruct Fi as [G1 G2 G3 G4]. change (ag_method a) with k in *. change (relaxed_count a) with (length g) in *.
    rewrite (rd_p _ _ _ _ _ _ Rd) in Ew. fold own_p in Ew. rewrite <- G1, skipn_app, skipn_all2, Nat.sub_diag in Ew by lia. cbn [app skipn] in Ew.
    rewrite (rd_theta _ _ _ _ _ _ Rd el Hel) in Vm. fold own_theta in Vm. rewrite <- (G3 el Hel) in Vm.
    rewrite app_nth2_plus in Vm. destruct (G4 el Hel) as [v [Ev Lv]].
    assert (Li : i < length g) by (apply nth_error_Some; congruence).
    assert (Lj : j < k_degree k).
    { pose proof (ds_points _ _ _ _ _ _ _ _ _ _ _ HD) as [Lp _]. rewrite <- Lp. apply nth_error_Some. fold pts. congruence. }
    assert (Eo : multiplier (st_nu st) (length g) el j i = Some (nth (j * length g + i) (nu_in st el) 0%Q)).
    { unfold multiplier, nu_in. rewrite Ev. apply nth_error_nth'. rewrite Lv. nia. }
    destruct (M el j tau i e w _ Hel Hj Ee Ew Eo) as [y [Ey Vy]]. exists y. split; [exact Ey|].
    rewrite Vy. fold o' N in Vm |- *. fold g in Vm. rewrite Vm. change (ag_method a) with k.
    rewrite (u_value q' c' el tau e Hq Hf Hel); [reflexivity|].
    intros u Hu. exact (Hnew e u (u_written e (nth_error_In _ _ Ee)) Hu).
  Qed.
End Update.

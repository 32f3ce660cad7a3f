(** The method of one node of a network. *)
From Coq Require Import String Qabs Lqa Setoid.
From Verif Require Import Base BaseProofs UtilModel UtilProofs ExprModel ExprProofs LagModel LagProofs SysModel SysSpec NlpModel NlpSpec OcpModel OcpSpec
  DiscModel DiscSpec DiscProofs ColSpec DirSpec DirColProofs DirTopProofs AugModel AugSpec AlsSpec AugLoopProofs AlsTopProofs MulSpec MulProofs
  ResModel NetModel DalModel DalSpec ExoModel ExoSpec ExoProofs AgrSpec AgrOptProofs NodSpec LagSpec.
Local Open Scope list_scope.
Local Open Scope nat_scope.

Lemma picks_last : forall {A} (l g v : list A), AugSpec.picks (l ++ g) (seq (length l) (length g)) v -> v = g.
Proof.
  intros A l g v H. unfold AugSpec.picks in H.
  assert (E : map (nth_error (l ++ g)) (seq (length l) (length g)) = map Some g).
  { clear H. revert l. induction g as [|x g IH]; intros l; [reflexivity|]. cbn [length seq map]. f_equal.
    - rewrite nth_error_app2, Nat.sub_diag by lia. reflexivity.
    - specialize (IH (l ++ [x])). rewrite app_length in IH. cbn [length] in IH. rewrite Nat.add_1_r, <- app_assoc in IH. exact IH. }
  rewrite E in H. clear E. revert v H. induction g as [|x g IH]; intros [|y v] H; try discriminate; [reflexivity|].
  cbn [map] in H. injection H as -> H. f_equal. apply IH. exact H.
Qed.

Lemma far_value_once : forall net last el k f q q', far_value net last el k f q -> far_value net last el k f q' -> q = q'.
Proof.
  intros net last el k [b v|b v] q q' [i [[Hi Hn] ->]] [j [[Hj _] ->]]; assert (i = j);
    try (subst; reflexivity); rewrite NoDup_nth_error in Hn; apply Hn; try (apply nth_error_Some; congruence); congruence.
Qed.

Lemma own_ends_length : forall net a, length (own_ends net a)
  = length (fed_inputs (map snd (dn_pred net a))) + length (used_outputs (map snd (dn_succ net a))).
Proof. intros. unfold own_ends. rewrite app_length, !map_length. reflexivity. Qed.

(** ** Sums *)

Lemma sum_qsum : forall l, sum_of l = qsum l.
Proof. induction l as [|x l IH]; [reflexivity|]. cbn. rewrite IH. reflexivity. Qed.
Lemma qsum_same : forall {A} (f h : A -> Q) l, (forall x, In x l -> (f x == h x)%Q) -> (qsum (map f l) == qsum (map h l))%Q.
Proof. intros A f h l H. rewrite <- !sum_qsum. apply sum_same, H. Qed.
Lemma sum_shift : forall (f : nat -> Q) m l, sum_of (map f (seq (S m) l)) = sum_of (map (fun i => f (S i)) (seq m l)).
Proof. intros f m l. rewrite <- seq_shift, map_map. reflexivity. Qed.
Lemma dot_sum : forall l m x, length l = x -> length m = x ->
  (dot l m == sum_of (map (fun i => nth i l 0 * nth i m 0) (seq 0 x)))%Q.
Proof.
  induction l as [|u l IH]; intros [|v m] x Hl Hm; cbn in Hl, Hm; subst x; try discriminate; [reflexivity|].
  cbn [dot length seq map sum_of nth]. rewrite sum_shift. cbn [nth]. rewrite (IH m (length l)); [reflexivity|reflexivity|lia].
Qed.
Lemma penalty_sum : forall nus mus gs x, length nus = x -> length mus = x -> length gs = x ->
  (penalty_value nus mus gs == sum_of (map (fun i => nth i nus 0 * nth i gs 0 + (1 # 2) * (nth i mus 0 * (nth i gs 0 * nth i gs 0))) (seq 0 x)))%Q.
Proof.
  intros nus mus gs x Hn Hm Hg. unfold penalty_value.
  rewrite (dot_sum nus gs x Hn Hg), (dot_sum mus (map (fun y => (y * y)%Q) gs) x Hm) by (rewrite map_length; exact Hg).
  rewrite <- sum_times, <- sum_plus. apply sum_same. intros i Hi. apply in_seq in Hi.
  rewrite (nth_indep (map _ gs) 0%Q ((fun y => y * y) 0)%Q) by (rewrite map_length; lia).
  rewrite (map_nth (fun y => y * y)%Q). reflexivity.
Qed.
Lemma rule_sum : forall pts b f h x, length b = length pts -> (forall i, i < length pts -> (f i == h (nth i pts 0))%Q) ->
  (sum_of (map (fun i => x * nth i b 0 * f i) (seq 0 (length pts))) == x * qsum (map (fun tb => snd tb * h (fst tb)) (combine pts b)))%Q.
Proof.
  induction pts as [|t pts IH]; intros [|w b] f h x Hl Hf; try discriminate; [cbn; ring|].
  cbn [length seq map sum_of combine qsum fst snd nth]. rewrite sum_shift. cbn [nth].
  rewrite (IH b (fun i => f (S i)) h x) by (try (intros i Hi; apply (Hf (S i)); cbn; lia); cbn in Hl; lia).
  rewrite (Hf 0) by (cbn; lia). cbn [nth]. ring.
Qed.
Lemma integral_sum : forall {A} opts omega (f : A -> nat -> nat -> Q) l,
  (sum_of (map (fun i => integral opts omega (f i)) l) == integral opts omega (fun el k => sum_of (map (fun i => f i el k) l)))%Q.
Proof.
  intros A opts omega f l. induction l as [|i l IH].
  - cbn [map sum_of]. unfold integral. symmetry.
    transitivity (sum_of (map (fun _ : nat => 0%Q) (seq 0 (do_elements opts)))).
    + apply sum_same. intros el _. transitivity (sum_of (map (fun _ : nat => 0%Q) (seq 0 (do_degree opts)))).
      { apply sum_same. intros j _. cbn [map sum_of]. ring. }
      generalize (seq 0 (do_degree opts)). intros l. induction l as [|y l IH]; [reflexivity|]. cbn [map sum_of]. rewrite IH. ring.
    + generalize (seq 0 (do_elements opts)). intros l. induction l as [|y l IH]; [reflexivity|]. cbn [map sum_of]. rewrite IH. ring.
  - cbn [map sum_of]. rewrite IH, <- integral_plus. reflexivity.
Qed.

Lemma same_entries : forall {A} (l m : list A), length l = length m -> (forall i, i < length l -> nth_error l i = nth_error m i) -> l = m.
Proof.
  induction l as [|x l IH]; intros [|y m] L H; try discriminate; [reflexivity|].
  pose proof (H 0 ltac:(cbn; lia)) as H0. cbn in H0. injection H0 as ->. f_equal. apply IH; [cbn in L; lia|].
  intros i Hi. apply (H (S i)). cbn. lia.
Qed.

Section Node.
  Variables (F : nat -> Q -> Q) (same : expr -> expr -> bool) (points : nat -> list Q) (dfun : nat -> expr -> expr)
    (dopts : dal_options) (net : dnet) (a : addr) (opts : al_options) (s s' : exo) (c : sym) (rx : relaxing)
    (k : method) (c0 : sym) (nl : nlp) (ps : par_syms) (r : traj sym) (x_c x_c0 first : sym).
  Let o := e_problem s'.
  Let o' := rx_problem rx.
  Let rq := connections (e_relax s').
  Let N := k_elements k.
  Let pts := points (k_degree k).
  Let upts := points (k_degree_control k).
  Let g := rx_alg rx ++ rx_eq rx.
  Let ends := own_ends net a.
  Let n := length ends.
  Hypothesis HF : respects F.
  Hypothesis HN : connected_node same points dfun dopts net a opts s s' c rx k c0 nl ps r x_c x_c0 first.

  Lemma n_relaxation : relaxation same points opts rq o c rx.
  Proof. exact (cn_relaxed _ _ _ _ _ _ _ _ _ _ _ _ _ _ _ _ _ _ _ HN). Qed.
  Lemma n_setting : direct_setting points dfun k c0 nl ps r o' x_c x_c0 first.
  Proof. exact (cn_setting _ _ _ _ _ _ _ _ _ _ _ _ _ _ _ _ _ _ _ HN). Qed.
  Lemma n_degree : do_degree dopts = k_degree k /\ al_degree opts = k_degree k.
  Proof. exact (cn_degree _ _ _ _ _ _ _ _ _ _ _ _ _ _ _ _ _ _ _ HN). Qed.
  Lemma n_points : length pts = k_degree k.
  Proof. exact (proj1 (ds_points _ _ _ _ _ _ _ _ _ _ _ n_setting)). Qed.
  Lemma n_good : good_points points (do_degree dopts).
  Proof.
    destruct n_relaxation as [_ _ [_ P3 [P4 P5]] _]. destruct n_degree as [E1 E2].
    rewrite E1, <- E2. split; [lia|]. split; assumption.
  Qed.

  (** The relaxed equations are those of the connections. *)
  Lemma n_equations : exists alg eqs, couples points (do_degree dopts) (m_tau (o_model o')) (e_next s)
      (fed_inputs (map snd (dn_pred net a))) (used_outputs (map snd (dn_succ net a))) alg eqs /\
      rx_alg rx = alg /\ rx_eq rx = eqs /\ m_theta (o_model o) = seq (e_next s) (n * do_degree dopts).
  Proof.
    destruct HN as [[Hr Ht] Hp HR HD _ _ _ _].
    destruct (w_C77_prepared _ _ _ _ _ _ n_good Hp) as [[[alg [eqs [Hc [Ea [Eg _]]]]] [Et [_ [_ [_ [Ra [Re _]]]]]]] Hk].
    assert (Htau : m_tau (o_model (e_problem s)) = m_tau (o_model o')).
    { pose proof (u_relaxes F same points opts rq o c rx k n_relaxation (proj2 n_degree)) as R.
      pose proof (re_tau _ _ _ _ _ _ R) as Q. fold o' in Q. rewrite Q. unfold kept_problem in Hk. decompose [and] Hk. symmetry. assumption. }
    rewrite Hr in Ra, Re. cbn [rl_alg rl_eq app] in Ra, Re. rewrite Ht in Et. cbn [app] in Et.
    exists alg, eqs. rewrite <- Htau. split; [exact Hc|]. destruct Hc as [La [Le _]].
    pose proof (t_alg F same points opts rq o c rx n_relaxation) as Pa. pose proof (t_eq F same points opts rq o c rx n_relaxation) as Pe.
    unfold wanted, rq, connections in Pa. cbn [rq_algebraic rq_equalities] in Pa, Pe.
    unfold rq, connections in Pe. cbn [rq_equalities] in Pe. unfold o in Pa, Pe |- *.
    rewrite Ra, Ea, <- La in Pa. rewrite Re, Eg, <- Le in Pe.
    split; [exact (picks_last _ _ _ Pa)|]. split; [exact (picks_last _ _ _ Pe)|].
    unfold n, ends. rewrite own_ends_length. exact Et.
  Qed.
  Lemma n_count : length g = n.
  Proof.
    destruct n_equations as [alg [eqs [[La [Le _]] [Ea [Ee _]]]]]. unfold g, n, ends.
    rewrite Ea, Ee, app_length, La, Le, own_ends_length. reflexivity.
  Qed.

  (** What they say at a point. *)
  Lemma n_said : forall th q c' el j i, fits k pts q -> el < N -> j < k_degree k -> i < n ->
    length (given_in (Some th) el) = n * k_degree k -> (exists rest, q_theta q el = given_in (Some th) el ++ rest) ->
    (eval F (user_point o' N q c' el (nth j pts 0%Q)) (nth i g (EConst 0)) ==
     difference (nth i ends (FarInput a 0%nat)) (node_value rx N pts net a (q, c') el j i) (parameter th el (i * k_degree k + j)%nat))%Q.
  Proof.
    intros th q c' el j i Hq Hel Hj Hi Lth [rest Eq].
    destruct n_equations as [alg [eqs [[La [Le [Wa We]]] [Ea [Ee Et]]]]]. destruct n_degree as [D1 D2]. rewrite D1 in Wa, We, Et.
    pose proof (u_point F same points dfun opts rq o c rx k c0 nl ps r x_c x_c0 first HF n_relaxation n_setting) as U.
    fold o' N in U. specialize (U q c' el (nth j pts 0%Q) Hq Hel). cbv zeta in U. unfold node_value. cbn [fst snd]. fold o'.
    set (env := user_point o' N q c' el (nth j pts 0%Q)) in *. clearbody env. destruct U as [Ut [_ Uth]].
    assert (V : env (e_next s + i * k_degree k + j)%nat = parameter th el (i * k_degree k + j)).
    { pose proof (u_relaxes F same points opts rq o c rx k n_relaxation D2) as R. pose proof (re_theta _ _ _ _ _ _ R) as Eth. fold o' in Eth.
      rewrite Eth, map_app, Et, Eq in Uth.
      assert (Lt : i * k_degree k + j < n * k_degree k) by nia.
      apply (f_equal (fun l => nth (i * k_degree k + j) l 0%Q)) in Uth.
      rewrite app_nth1 in Uth by (rewrite map_length, seq_length; exact Lt). rewrite app_nth1 in Uth by (rewrite Lth; exact Lt).
      rewrite (nth_indep _ 0%Q (env 0)) in Uth by (rewrite map_length, seq_length; exact Lt).
      rewrite map_nth, seq_nth in Uth by exact Lt. rewrite Nat.add_assoc in Uth. rewrite Uth. reflexivity. }
    assert (Tt : (env (m_tau (o_model o')) == nth j (points (k_degree k)) 0)%Q) by (rewrite Ut; reflexivity).
    unfold n, ends, own_ends, g in *. rewrite app_length, !map_length in Hi. rewrite Ea, Ee.
    destruct (Nat.lt_ge_cases i (length alg)) as [Hl|Hl].
    - rewrite !app_nth1 by (rewrite ?map_length; lia).
      rewrite (map_nth (FarInput a)). cbn [difference variable].
      rewrite (Wa i ltac:(lia) F env j Hj Tt), V. reflexivity.
    - rewrite !app_nth2 by (rewrite ?map_length; lia). rewrite map_length.
      rewrite (nth_indep _ (FarInput a 0) (FarOutput a 0)) by (rewrite map_length; lia). rewrite map_nth. cbn [difference variable].
      rewrite La. assert (Hi' : i - length (fed_inputs (map snd (dn_pred net a))) < length (used_outputs (map snd (dn_succ net a)))) by lia.
      rewrite (We _ Hi' F env j Hj Tt).
      replace (length (fed_inputs (map snd (dn_pred net a))) + (i - length (fed_inputs (map snd (dn_pred net a))))) with i by lia.
      rewrite V. reflexivity.
  Qed.

  (** ** Updates *)

  Lemma n_theta_length : length (m_theta (o_model o)) = n * k_degree k.
  Proof.
    destruct n_equations as [alg [eqs [_ [_ [_ Et]]]]]. rewrite Et, seq_length. rewrite (proj1 n_degree). reflexivity.
  Qed.

  Lemma n_received : forall last th el j i far f, Forall (far_known net) (far_ends net a) -> full_results dopts last ->
    given dopts net last a th -> el < N -> j < k_degree k -> nth_error (far_ends net a) i = Some far ->
    far_value net last el j far f -> parameter th el (i * k_degree k + j) = f.
  Proof.
    intros last th el j i far f K R [_ G] Hel Hj Hf Hv.
    assert (He : el < do_elements dopts) by (rewrite (cn_elements _ _ _ _ _ _ _ _ _ _ _ _ _ _ _ _ _ _ _ HN); exact Hel).
    destruct n_degree as [D1 _]. rewrite <- D1 in *. unfold parameter. rewrite (G el He), received_ends by exact K.
    assert (Hi : i < length (far_ends net a)) by (apply nth_error_Some; congruence).
    rewrite (nth_flat_map_uniform _ (do_degree dopts) _ i j far 0%Q); [|intros; apply far_list_length; assumption|exact Hi|exact Hj].
    rewrite (nth_error_nth _ _ far Hf). apply (far_value_once net last el j far); [|exact Hv].
    apply far_list_value; try assumption. rewrite Forall_forall in K. apply K. eapply nth_error_In, Hf.
  Qed.

  (** ** Costs *)

  Theorem n_cost : forall l v w b, o_L o = [l] -> o_V o = [v] -> o_S o = [w] -> length b = k_degree k ->
    exists l', o_L o' = [l'] /\ o_V o' = [v] /\ o_S o' = [w] /\
    forall q1 c1 q c' th nu mu, fits k pts q -> same_trajectory o (freed o rq) N q1 c1 q c' ->
      node_parameters N (k_degree k) (length (own_ends net a)) (length (m_p (o_model o))) th nu mu q ->
      (user_cost F o' N q c' v l' w pts b == user_cost F o N q1 c1 v l w pts b +
       charge dopts net node_trajectory (node_value rx N pts net) (fun _ j => user_step o' N * nth j b 0) a nu mu th (q, c'))%Q.
  Proof.
    intros l v w b El Ev Ew Lb. pose proof n_relaxation as HR. pose proof n_setting as HD. pose proof n_degree as [D1 D2].
    destruct (t_cost F same points dfun opts rq o c rx k c0 nl ps r x_c x_c0 first HF HR HD l v w b El Ev Ew) as [l' [E1 [E2 [E3 H]]]].
    exists l'. split; [exact E1|]. split; [exact E2|]. split; [exact E3|]. fold N pts o' g in H.
    intros q1 c1 q c' th nu mu Hq HS [Pmu Pth]. rewrite (H q1 c1 q c' Hq HS). clear H. apply Qplus_comp; [reflexivity|].
    unfold charge. fold ends n in Pth |- *.
    rewrite (integral_sum dopts _ (fun i el j => _)). unfold integral, penalty_total.
    rewrite (cn_elements _ _ _ _ _ _ _ _ _ _ _ _ _ _ _ _ _ _ _ HN), D1. fold N. symmetry. apply qsum_same. intros el Hel. apply in_seq in Hel.
    rewrite <- n_points at 1.
    apply (rule_sum pts b _ (fun tau => let env := user_point o' N q c' el tau in
      penalty_value (map (eval F env) (rx_nu_pol rx)) (map env (rx_mu_sym rx)) (map (eval F env) g))); [rewrite n_points; exact Lb|].
    intros j Hj. rewrite n_points in Hj. cbv zeta. pose proof (u_relaxes F same points opts rq o c rx k HR D2) as R. fold g pts in R.
    assert (Et : nth_error pts j = Some (nth j pts 0%Q)) by (apply nth_error_nth'; rewrite n_points; exact Hj).
    pose proof (u_weights F same points dfun opts rq o c rx k c0 nl ps r x_c x_c0 first HF HR HD D2 q c' Hq el (nth j pts 0%Q) ltac:(fold N; lia)) as Vw.
    unfold weights_at in Vw. fold o' N in Vw. rewrite Vw, Pmu.
    rewrite (penalty_sum _ mu _ n).
    2:{ rewrite map_length. rewrite (re_pol _ _ _ _ _ _ R). exact n_count. }
    2:{ rewrite <- Pmu, <- Vw, map_length. rewrite (re_weights _ _ _ _ _ _ R). exact n_count. }
    2:{ rewrite map_length. exact n_count. }
    assert (Lth : length (given_in (Some th) el) = n * k_degree k).
    { pose proof (t_sizes F same points dfun opts rq o c rx k c0 nl ps r x_c x_c0 first HF HR HD q Hq) as [_ [Z2 _]].
      fold o' N in Z2. specialize (Z2 el ltac:(lia)). rewrite (Pth el ltac:(lia)) in Z2.
      pose proof (re_theta _ _ _ _ _ _ R) as Eth. fold o' in Eth. rewrite Eth, !app_length, n_theta_length, (re_par _ _ _ _ _ _ R), n_count, n_points in Z2.
      rewrite (length_flat_map_uniform _ n) in Z2 by (intros; rewrite map_length, seq_length; reflexivity).
      rewrite seq_length in Z2. lia. }
    apply sum_same. intros i Hi. apply in_seq in Hi.
    rewrite (nth_indep (map (eval F _) g) 0%Q (eval F (user_point o' N q c' el (nth j pts 0%Q)) (EConst 0))) by (rewrite map_length, n_count; lia).
    rewrite map_nth.
    pose proof (n_said th q c' el j i Hq ltac:(lia) Hj ltac:(lia) Lth (ex_intro _ _ (Pth el ltac:(lia)))) as Sd. rewrite Sd. clear Sd.
    assert (Ei : nth_error (rx_nu_pol rx) i = Some (nth i (rx_nu_pol rx) (EConst 0))).
    { apply nth_error_nth'. rewrite (re_pol _ _ _ _ _ _ R), n_count. lia. }
    rewrite (nth_indep (map (eval F _) (rx_nu_pol rx)) 0%Q (eval F (user_point o' N q c' el (nth j pts 0%Q)) (EConst 0)))
      by (rewrite map_length, (re_pol _ _ _ _ _ _ R), n_count; lia).
    rewrite map_nth.
    pose proof (u_multiplier F same points dfun opts rq o c rx k c0 nl ps r x_c x_c0 first HF HR HD D2 q c' Hq el j _ i _ ltac:(fold N; lia) Et Ei) as Vm.
    fold o' N g in Vm. rewrite Vm, (Pth el ltac:(lia)), n_theta_length, <- Lth, app_nth2_plus, n_count.
    rewrite (nth_flat_map_uniform _ n _ j i 0 0%Q); [|intros; rewrite map_length, seq_length; reflexivity|rewrite seq_length; exact Hj|lia].
    rewrite seq_nth by exact Hj. cbn [Nat.add].
    rewrite (nth_indep (map (nu el j) (seq 0 n)) 0%Q (nu el j 0)) by (rewrite map_length, seq_length; lia). rewrite map_nth, seq_nth by lia. cbn [Nat.add].
    reflexivity.
  Qed.

  Theorem n_best : forall l v w b, o_L o = [l] -> o_V o = [v] -> o_S o = [w] -> exact_rule pts b -> o_positive o' = false ->
    let charged nu mu th x := charge dopts net node_trajectory (node_value rx N pts net) (fun _ j => user_step o' N * nth j b 0)%Q a nu mu th x in
    exists e, nf nl = [e] /\ forall env q c' q1 c1 th nu mu, describes k pts env ps r q -> followed o' N upts q c' -> feasible F env nl ->
      (forall env', map env' (all_mx ps) = map env (all_mx ps) -> feasible F env' nl -> (eval F env e <= eval F env' e)%Q) ->
      same_trajectory o (freed o rq) N q1 c1 q c' ->
      node_parameters N (k_degree k) (length (own_ends net a)) (length (m_p (o_model o))) th nu mu q ->
      user_collocated F o' N q c' pts /\ user_within o' N q c' upts pts /\
      forall z cz z1 cz1, sized k pts z -> followed o' N upts z cz -> same_data o' N q z ->
        user_collocated F o' N z cz pts -> user_within o' N z cz upts pts -> same_trajectory o (freed o rq) N z1 cz1 z cz ->
        (user_cost F o N q1 c1 v l w pts b + charged nu mu th (q, c') <= user_cost F o N z1 cz1 v l w pts b + charged nu mu th (z, cz))%Q.
  Proof.
    intros l v w b El Ev Ew Hb Hpos charged. pose proof n_relaxation as HR. pose proof n_setting as HD. pose proof n_degree as [D1 D2].
    destruct (n_cost l v w b El Ev Ew) as [l' [E1 [E2 [E3 HC]]]]; [rewrite <- n_points; exact (proj1 Hb)|].
    destruct (w_C67_optimal F points dfun k c0 nl ps r o' x_c x_c0 first l' v w b HF HD E1 E2 E3 Hb Hpos) as [e [Ee H]].
    exists e. split; [exact Ee|]. intros env q c' q1 c1 th nu mu Hd Hf Hfe Hmin HS HP. fold N pts upts in H.
    destruct (H env q c' Hd Hf Hfe Hmin) as [H1 [H2 H3]]. clear H. split; [exact H1|]. split; [exact H2|].
    intros z cz z1 cz1 Zs Zf Zd Zc Zw ZS.
    assert (Fq : fits k pts q) by exact (t_fits F points dfun rx k c0 nl ps r x_c x_c0 first HF HD env q Hd).
    assert (Fz : fits k pts z) by exact (sized_fits points k z Zs).
    assert (HPz : node_parameters N (k_degree k) (length (own_ends net a)) (length (m_p (o_model o))) th nu mu z).
    { pose proof (u_relaxes F same points opts rq o c rx k HR D2) as R. pose proof (re_opt _ _ _ _ _ _ R) as [Op Ot]. fold o' in Op, Ot.
      pose proof (cn_decided _ _ _ _ _ _ _ _ _ _ _ _ _ _ _ _ _ _ _ HN) as [Op' Ot']. fold o in Op', Ot'. rewrite Op' in Op. rewrite Ot' in Ot.
      destruct (t_sizes F same points dfun opts rq o c rx k c0 nl ps r x_c x_c0 first HF HR HD q Fq) as [Lq [Tq _]].
      destruct (t_sizes F same points dfun opts rq o c rx k c0 nl ps r x_c x_c0 first HF HR HD z Fz) as [Lz [Tz _]].
      fold o' N in Lq, Tq, Lz, Tz.
      assert (Ep : q_p z = q_p q).
      { apply same_entries; [congruence|]. intros i Hi. destruct (nth_error (m_p (o_model o')) i) as [y|] eqn:Ey; [|apply nth_error_None in Ey; lia].
        apply (sd_p _ _ _ _ Zd i y Ey). rewrite Op. intros []. }
      destruct HP as [P1 P2]. split; [rewrite Ep; exact P1|]. intros el Hel. rewrite <- (P2 el Hel).
      apply same_entries; [rewrite (Tz el Hel), (Tq el Hel); reflexivity|]. intros i Hi.
      destruct (nth_error (m_theta (o_model o')) i) as [y|] eqn:Ey; [|apply nth_error_None in Ey; rewrite (Tz el Hel) in Hi; lia].
      apply (sd_theta _ _ _ _ Zd el i y Hel Ey). rewrite Ot. intros []. }
    unfold charged. rewrite <- (HC q1 c1 q c' th nu mu Fq HS HP), <- (HC z1 cz1 z cz th nu mu Fz ZS HPz).
    exact (H3 z cz Zs Zf Zd Zc Zw).
  Qed.

  Variable vars : list sym.
  Hypothesis Hvars : NoDup vars.
  Let ag := mkAugmented k vars (rx_alg rx) (rx_eq rx) (rx_mu_sym rx) (rx_nu_pol rx).

  Theorem n_update : forall last st p th tr q c',
    Forall (far_known net) (far_ends net a) -> full_results dopts last -> given dopts net last a th ->
    fitting ag (m_p (o_model o)) (m_theta (o_model o)) st p (Some th) -> collocation_shape k tr ->
    reads k pts tr (given_p p ++ st_mu st) (fun el => given_in (Some th) el ++ nu_in st el) q -> followed o' N upts q c' ->
    al_skip_compute opts = false -> al_skip_nu opts = false -> al_improve opts = false \/ st_last st = None ->
    forall st' errors, AugModel.update_parameters F opts (create_nu_update_func points ag) N p (Some th) (flatten tr) st = (st', Ok errors) ->
    exists d, st_nu_tilde st' = Some d /\ st_nu st' = st_nu st /\
      forall el j i own far f, el < N -> j < k_degree k ->
        nth_error (own_ends net a) i = Some own -> nth_error (far_ends net a) i = Some far -> far_value net last el j far f ->
        exists x old w, multiplier d (length (own_ends net a)) el j i = Some x /\
          multiplier (st_nu st) (length (own_ends net a)) el j i = Some old /\ nth_error (st_mu st) i = Some w /\
          (x == old + w * difference own (node_value rx N pts net a (q, c') el j i) f)%Q.
  Proof.
    intros last st p th tr q c' K R G Fi Sh Rd Hf S1 S2 S3 st' errors Hup.
    pose proof n_relaxation as HR. pose proof n_setting as HD. pose proof n_degree as [D1 D2].
    assert (Hopt : o_p_opt o = [] /\ o_theta_opt o = []) by exact (cn_decided _ _ _ _ _ _ _ _ _ _ _ _ _ _ _ _ _ _ _ HN).
    assert (Hnew : forall e v, In e (written o) -> In v (x_c :: x_c0 :: m_u_par (k_model k)) -> ~ mentions e v)
      by exact (cn_new _ _ _ _ _ _ _ _ _ _ _ _ _ _ _ _ _ _ _ HN).
    pose proof (u_reads_fit F same points dfun opts rq o c rx k c0 nl ps r x_c x_c0 first HR HD D2 Hopt vars Hvars st p (Some th) tr q Fi Sh Rd) as Hq.
    destruct (updated_multipliers F points opts ag (m_p (o_model o)) (m_theta (o_model o)) HF (ds_transcribable _ _ _ _ _ _ _ _ _ _ _ HD)
      (ds_points _ _ _ _ _ _ _ _ _ _ _ HD) (u_carries F same points dfun opts rq o c rx k c0 nl ps r x_c x_c0 first HR HD D2 Hopt vars Hvars)
      st p (Some th) tr q Fi Sh Rd S1 st' errors Hup S2 S3) as [d [Ed [[_ [_ M]] En]]].
    exists d. split; [exact Ed|]. split; [exact En|]. intros el j i own far f Hel Hj Ho Hfar Hv.
    fold ends n. change (ag_method ag) with k in M. change (relaxed_equations ag) with g in M. change (relaxed_count ag) with (length g) in M.
    rewrite n_count in M.
    assert (Hi : i < n) by (apply nth_error_Some; unfold ends; congruence).
    destruct Fi as [G1 G2 G3 G4]. change (ag_method ag) with k in *. change (relaxed_count ag) with (length g) in *. rewrite n_count in *.
    destruct (G4 el Hel) as [v [Ev Lv]].
    assert (Eo : multiplier (st_nu st) n el j i = Some (nth (j * n + i) v 0%Q)).
    { unfold multiplier. rewrite Ev. apply nth_error_nth'. rewrite Lv. nia. }
    assert (Ew : nth_error (st_mu st) i = Some (nth i (st_mu st) 0%Q)) by (apply nth_error_nth'; lia).
    assert (Ee : nth_error g i = Some (nth i g (EConst 0))) by (apply nth_error_nth'; rewrite n_count; exact Hi).
    assert (Et : nth_error pts j = Some (nth j pts 0%Q)) by (apply nth_error_nth'; rewrite n_points; exact Hj).
    destruct (M el j _ i _ _ _ Hel Et Ee Ew Eo) as [x [Ex Vx]].
    exists x, (nth (j * n + i) v 0%Q), (nth i (st_mu st) 0%Q). split; [exact Ex|]. split; [exact Eo|]. split; [exact Ew|].
    rewrite Vx. 
    rewrite (u_value F points dfun rx k c0 nl ps r x_c x_c0 first HF HD q c' el (nth j pts 0%Q) _ Hq Hf Hel).
    - fold o' N. rewrite (n_said th q c' el j i Hq Hel Hj Hi).
      + rewrite (n_received last th el j i far f K R G Hel Hj Hfar Hv). fold ends in Ho. rewrite (nth_error_nth _ _ _ Ho). reflexivity.
      + rewrite (G3 el Hel). apply n_theta_length.
      + exists (nu_in st el). exact (rd_theta _ _ _ _ _ _ Rd el Hel).
    - intros u Hu. apply (Hnew _ u); [|exact Hu].
      apply (u_written F same points opts rq o c rx HR). eapply nth_error_In, Ee.
  Qed.
End Node.

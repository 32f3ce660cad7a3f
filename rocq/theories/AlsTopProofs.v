(** What the solutions of a relaxed problem say about the problem of the user. *)
From Coq Require Import String Qabs Lqa.
From Verif Require Import Base BaseProofs UtilModel UtilProofs ExprModel ExprProofs NlpModel NlpSpec SysModel SysSpec SysProofs
   OcpModel OcpSpec LagModel LagSpec DiscModel DiscSpec ColSpec ColEvalProofs ColTopProofs
   DirSpec DirProofs DirColProofs DirTopProofs AugModel AugSpec AugRelaxProofs AugMoreProofs AlsSpec AlsRelaxProofs AlsProofs
   AlsMoveProofs.
Local Open Scope list_scope.
Local Open Scope nat_scope.

Lemma w_C81_relaxed : forall F same points opts rq o c rx,
    relaxation same points opts rq o c rx ->
    loosened F (wanted o rq) (freed o rq) (rq_equalities rq) (rx_mu_sym rx) (rx_nu_par rx) (rx_nu_pol rx) o (rx_problem rx) /\
    picks (m_alg (o_model o)) (wanted o rq) (rx_alg rx) /\ picks (o_g_eq o) (rq_equalities rq) (rx_eq rx) /\
    Forall (fun v => c <= v) (rx_mu_sym rx ++ rx_nu_par rx).
Proof.
  intros F same points opts rq o c rx [Hs [[R1 R1'] R2 R3 R4 R5 R6 [R7 R7'] R8 R9 R10] Hp Hr].
  exact (relax_loosens F same points opts rq o c rx Hs R1 R1' R7' R5 Hp R10 Hr).
Qed.

(** ** How negative the penalty can be *)

Lemma qsum_least : forall (A : Type) (f h : A -> Q) l, (forall a, In a l -> h a <= f a)%Q -> (qsum (map h l) <= qsum (map f l))%Q.
Proof.
  intros A f h l. induction l as [|a l IH]; intros H; [apply Qle_refl|]. cbn [map qsum].
  apply Qplus_le_compat; [apply H; left; reflexivity|apply IH; intros x Hx; apply H; right; exact Hx].
Qed.
Lemma qsum_factor : forall (A : Type) (f : A -> Q) K l, (qsum (map (fun a => f a * K) l) == qsum (map f l) * K)%Q.
Proof. intros A f K l. induction l as [|a l IH]; [cbn; ring|]. cbn [map qsum]. rewrite IH. ring. Qed.
Lemma qsum_constant : forall (A : Type) K (l : list A), (qsum (map (fun _ => K) l) == inject_Z (Z.of_nat (length l)) * K)%Q.
Proof.
  intros A K l. induction l as [|a l IH]; [cbn; ring|]. cbn [map qsum length]. rewrite IH, Nat2Z.inj_succ.
  unfold Z.succ. rewrite inject_Z_plus. ring.
Qed.
Lemma Qmult_le_l_nonneg : forall a x y, (0 <= a -> x <= y -> a * x <= a * y)%Q.
Proof. intros a x y Ha H. rewrite !(Qmult_comm a). apply Qmult_le_compat_r; assumption. Qed.
Lemma dot_least : forall nu g eps, Forall (fun x => Qabs x <= eps)%Q g -> (0 <= eps)%Q ->
    (- (qsum (map Qabs nu) * eps) <= dot nu g)%Q.
Proof.
  induction nu as [|n nu IH]; intros g eps H He; [cbn; lra|]. destruct g as [|x g].
  - cbn [dot]. assert (P : (0 <= qsum (map Qabs (n :: nu)))%Q).
    { clear. induction (n :: nu) as [|a l IH]; [apply Qle_refl|]. cbn [map qsum]. pose proof (Qabs_nonneg a). lra. }
    nra.
  - inversion H as [|? ? H1 H2]; subst. cbn [map qsum dot]. specialize (IH g eps H2 He).
    assert (B : (- (Qabs n * eps) <= n * x)%Q).
    { apply Qabs_Qle_condition in H1. destruct H1 as [H1 H1'].
      destruct (Qlt_le_dec n 0) as [Hn|Hn]; [rewrite (Qabs_neg n) by lra|rewrite (Qabs_pos n) by lra]; nra. }
    lra.
Qed.
Lemma squares_nonneg : forall mu g, Forall (fun m => 0 <= m)%Q mu -> (0 <= dot mu (map (fun x => x * x) g))%Q.
Proof.
  induction mu as [|m mu IH]; intros g H; [apply Qle_refl|]. destruct g as [|x g]; [apply Qle_refl|].
  inversion H; subst. cbn [map dot]. specialize (IH g H3). assert (0 <= x * x)%Q by nra. assert (0 <= m * (x * x))%Q by (apply Qmult_le_0_compat; assumption). lra.
Qed.
Lemma rule_sum : forall pts b, exact_rule pts b -> pts <> [] -> (qsum (map snd (combine pts b)) == 1)%Q.
Proof.
  intros pts b [Lb H] Hp. assert (L : length [0%Q; 1%Q] <= S (length pts)) by (destruct pts; [contradiction|cbn; lia]).
  specialize (H _ L). cbn [poly derivative scaled_from] in H.
  assert (E : (qsum (map snd (combine pts b)) == qsum (map (fun tb => snd tb * (inject_Z (Z.of_nat 1) * 1 + fst tb * 0)) (combine pts b)))%Q).
  { generalize (combine pts b). intros l. induction l as [|a l IH]; [reflexivity|]. cbn [map qsum]. rewrite IH.
    change (inject_Z (Z.of_nat 1)) with 1%Q. ring. }
  rewrite E. rewrite <- H. ring.
Qed.
Lemma penalty_total_least : forall F o' N q' c' pol mu g pts b K, 0 < N -> (o_t_0 o' <= o_t_f o')%Q ->
    exact_rule pts b -> pts <> [] -> Forall (fun x => 0 <= x)%Q b ->
    (forall el tau, (el < N)%nat -> In tau pts ->
       - K <= penalty_value (map (eval F (user_point o' N q' c' el tau)) pol) (map (user_point o' N q' c' el tau) mu)
                            (map (eval F (user_point o' N q' c' el tau)) g))%Q ->
    (- ((o_t_f o' - o_t_0 o') * K) <= penalty_total F o' N q' c' pol mu g pts b)%Q.
Proof.
  intros F o' N q' c' pol mu g pts b K HN Ht Hb Hp Hnn H. unfold penalty_total.
  assert (HQ : (0 < inject_Z (Z.of_nat N))%Q) by (change 0%Q with (inject_Z 0); rewrite <- Zlt_Qlt; lia).
  assert (Hstep : (0 <= user_step o' N)%Q).
  { unfold user_step. apply Qle_shift_div_l; [exact HQ|]. lra. }
  apply (Qle_trans _ (qsum (map (fun _ : nat => (user_step o' N * - K)%Q) (seq 0 N)))).
  - rewrite qsum_constant, seq_length. unfold user_step. apply Qle_lteq. right. field. lra.
  - apply qsum_least. intros el Hel. apply in_seq in Hel. apply Qmult_le_l_nonneg; [exact Hstep|].
    apply (Qle_trans _ (qsum (map (fun tb : Q * Q => (snd tb * - K)%Q) (combine pts b)))).
    + rewrite (qsum_factor _ snd). rewrite (rule_sum pts b Hb Hp). lra.
    + apply qsum_least. intros tb Htb. cbv zeta. rewrite Forall_forall in Hnn.
      assert (P : (0 <= snd tb)%Q) by (destruct tb as [t wt]; exact (Hnn wt (in_combine_r _ _ _ _ Htb))).
      apply Qmult_le_l_nonneg; [exact P|]. apply H; [lia|exact (combine_fst_local _ _ _ Htb)].
Qed.

Section Top.
  Variables (F : nat -> Q -> Q) (same : expr -> expr -> bool) (points : nat -> list Q) (dfun : nat -> expr -> expr)
    (opts : al_options) (rq : request) (o : ocp) (c : sym) (rx : relaxing)
    (k : method) (c0 : sym) (nl : nlp) (s : par_syms) (r : traj sym) (x_c x_c0 first : sym).
  Let o' := rx_problem rx.
  Let vidx := freed o rq.
  Let N := k_elements k.
  Let pts := points (k_degree k).
  Let upts := points (k_degree_control k).
  Let g := rx_alg rx ++ rx_eq rx.
  Hypothesis HF : respects F.
  Hypothesis HR : relaxation same points opts rq o c rx.
  Hypothesis HD : direct_setting points dfun k c0 nl s r o' x_c x_c0 first.

  Lemma t_loosened : loosened F (wanted o rq) vidx (rq_equalities rq) (rx_mu_sym rx) (rx_nu_par rx) (rx_nu_pol rx) o o'.
  Proof. exact (proj1 (w_C81_relaxed F same points opts rq o c rx HR)). Qed.
  Lemma t_alg : picks (m_alg (o_model o)) (wanted o rq) (rx_alg rx).
  Proof. exact (proj1 (proj2 (w_C81_relaxed F same points opts rq o c rx HR))). Qed.
  Lemma t_eq : picks (o_g_eq o) (rq_equalities rq) (rx_eq rx).
  Proof. exact (proj1 (proj2 (proj2 (w_C81_relaxed F same points opts rq o c rx HR)))). Qed.
  Lemma t_fresh : forall e v, In e (written o) -> mentions e v -> ~ In v (rx_mu_sym rx ++ rx_nu_par rx).
  Proof.
    intros e v He Hv Hin. pose proof (proj2 (proj2 (proj2 (w_C81_relaxed F same points opts rq o c rx HR)))) as Hf.
    rewrite Forall_forall in Hf. specialize (Hf v Hin). pose proof (proj1 (rl_before _ _ _ (re_able _ _ _ _ _ _ _ HR)) e v He Hv). lia.
  Qed.
  Lemma t_symbols : NoDup (user_symbols o').
  Proof. exact (NoDup_app_l _ _ _ (po_symbols _ _ (ds_posed _ _ _ _ _ _ _ _ _ _ _ HD))). Qed.
  Lemma t_names : NoDup (m_y (o_model o)).
  Proof. exact (proj1 (rl_names _ _ _ (re_able _ _ _ _ _ _ _ HR))). Qed.
  Lemma t_x : m_x (o_model o') = m_x (o_model o) /\ m_x_0 (o_model o') = m_x_0 (o_model o).
  Proof. destruct (lo_same _ _ _ _ _ _ _ _ _ t_loosened) as [E _]. cbv zeta in E. injection E as E1 E2 _ _. split; [exact E1|exact E2]. Qed.
  Lemma t_x0 : length (m_x_0 (o_model o)) = length (m_x (o_model o)).
  Proof. destruct t_x as [<- <-]. exact (po_initial _ _ (ds_posed _ _ _ _ _ _ _ _ _ _ _ HD)). Qed.
  Lemma t_ode : length (m_ode (o_model o)) <= length (m_x (o_model o)).
  Proof.
    destruct t_x as [<- _]. destruct (lo_equations _ _ _ _ _ _ _ _ _ t_loosened) as [<- _].
    destruct (po_equations _ _ (ds_posed _ _ _ _ _ _ _ _ _ _ _ HD)) as [E _]. rewrite <- E, map_length. lia.
  Qed.
  Lemma t_prepared : prepared F upts x_c x_c0 o' (k_problem k).
  Proof.
    destruct HD as [A1 A2 A3 A4 A5 A6 A7 A8].
    exact (is_prepared F points k o' x_c x_c0 first HF A3 A4 A5).
  Qed.
  Lemma t_elements : 0 < N.
  Proof. destruct HD as [A1 A2 A3 A4 A5 A6 A7 A8]. exact (some_elements F points dfun k c0 nl s r o' HF A1 A2 A3 A7). Qed.
  Lemma t_upts : 0 < length upts.
  Proof. destruct HD as [A1 A2 A3 A4 A5 A6 A7 A8]. destruct A4 as [A4 _]. unfold upts. rewrite A4. exact A3. Qed.
  Lemma t_pts : pts <> [].
  Proof.
    destruct HD as [A1 A2 A3 A4 A5 A6 A7 A8]. pose proof (tr_degree _ A1) as L. destruct A2 as [E _]. fold pts in E.
    intros C. rewrite C in E. cbn in E. lia.
  Qed.
  Lemma t_horizon : (o_t_0 o' <= o_t_f o')%Q.
  Proof.
    destruct (pr_same _ _ _ _ _ _ t_prepared) as [_ [E _]]. injection E as E0 E1 _ _ _.
    destruct HD as [A1 A2 A3 A4 A5 A6 A7 A8]. pose proof (tr_horizon _ A1) as H. rewrite E0, E1 in H. lra.
  Qed.
  Lemma t_fits : forall env q, describes k pts env s r q -> fits k pts q.
  Proof. destruct HD as [A1 A2 A3 A4 A5 A6 A7 A8]. exact (describes_fits F points dfun k c0 nl s r o' HF A1 A2 A3 A7). Qed.
  Lemma t_sizes : forall q, fits k pts q -> length (q_p q) = length (m_p (o_model o')) /\
      (forall el, el < N -> length (q_theta q el) = length (m_theta (o_model o'))) /\
      length (m_x (o_model o)) <= length (q_x0 q) /\
      (forall el, el < N -> length (q_u q el) = length upts * length (m_u (o_model o'))).
  Proof.
    intros q [S1 S2 S3 S4 S5]. destruct (pr_same _ _ _ _ _ _ t_prepared) as [E _]. cbv zeta in E.
    injection E as _ Eu Ep Et _ _. destruct (pr_parameters _ _ _ _ _ _ t_prepared) as [Lp _].
    destruct (pr_states _ _ _ _ _ _ t_prepared) as [Ex _]. fold (k_model k) in Ep, Et, Lp, Ex.
    rewrite Ep in S3. split; [exact S3|]. split; [intros el Hel; rewrite (S4 el Hel), Et; reflexivity|].
    split; [rewrite S5, Ex, app_length; destruct t_x as [-> _]; lia|]. intros el Hel. rewrite (S2 el Hel). exact Lp.
  Qed.
  Lemma t_freed : NoDup vidx.
  Proof.
    destruct (lo_variables _ _ _ _ _ _ _ _ _ t_loosened) as [y [Py [_ [Eu _]]]]. pose proof t_symbols as ND.
    unfold user_symbols in ND. inversion ND as [|? ? _ ND1]; subst. inversion ND1 as [|? ? _ ND2]; subst.
    do 2 apply NoDup_app_r in ND2. apply NoDup_app_l in ND2. rewrite Eu in ND2. apply NoDup_app_r in ND2.
    apply (NoDup_map_inv (nth_error (m_y (o_model o)))). unfold picks in Py. rewrite Py.
    apply FinFun.Injective_map_NoDup; [intros a b Hab; congruence|exact ND2].
  Qed.

  Theorem t_same : forall q1 c1 q' c', fits k pts q' -> same_trajectory o vidx N q1 c1 q' c' ->
      (user_collocated F o N q1 c1 pts <-> user_collocated F o' N q' c' pts /\ restored_equations F rx N q' c' pts) /\
      (vidx = [] \/ k_degree_control k = k_degree k -> (user_within o' N q' c' upts pts <-> user_within o N q1 c1 upts pts)).
  Proof.
    intros q1 c1 q' c' Hq HS. destruct (t_sizes q' Hq) as [Z1 [Z2 [Z3 _]]].
    destruct (re_able _ _ _ _ _ _ _ HR) as [R1 R2 R3 R4 R5 R6 [R7 R7'] R8 R9 R10]. split.
    - exact (same_collocated F (wanted o rq) vidx (rq_equalities rq) _ _ _ o o' N t_loosened t_symbols t_names t_elements t_x0 t_fresh t_ode
        q1 c1 q' c' HS Z1 Z2 Z3 R3 R4 _ _ t_alg t_eq R2 R7 R8 R6 R9 pts).
    - intros Hd. apply (same_within F (wanted o rq) vidx (rq_equalities rq) _ _ _ o o' N t_loosened t_symbols t_elements t_x0 t_ode
        q1 c1 q' c' HS Z1 Z2 Z3 R3 R4 upts pts). destruct Hd as [Hd | Hd]; [left; exact Hd|right]. unfold upts, pts. rewrite Hd. reflexivity.
  Qed.
  Theorem t_cost : forall l v w b, o_L o = [l] -> o_V o = [v] -> o_S o = [w] ->
      exists l', o_L o' = [l'] /\ o_V o' = [v] /\ o_S o' = [w] /\
      forall q1 c1 q' c', fits k pts q' -> same_trajectory o vidx N q1 c1 q' c' ->
        (user_cost F o' N q' c' v l' w pts b ==
         user_cost F o N q1 c1 v l w pts b + penalty_total F o' N q' c' (rx_nu_pol rx) (rx_mu_sym rx) g pts b)%Q.
  Proof.
    intros l v w b El Ev Ew. destruct (lo_cost _ _ _ _ _ _ _ _ _ t_loosened) as [ga [ge [Pa [Pe [_ [_ Hc]]]]]].
    assert (Ea : ga = rx_alg rx) by exact (picks_fun _ _ _ _ _ Pa t_alg). assert (Ee : ge = rx_eq rx) by exact (picks_fun _ _ _ _ _ Pe t_eq).
    subst ga ge.
    destruct (re_able _ _ _ _ _ _ _ HR) as [R1 R2 R3 R4 R5 R6 [R7 R7'] R8 R9 R10].
    assert (Hl' : exists l', o_L o' = [l']).
    { pose proof (Hc (fun _ => 0%Q)) as H. rewrite El in H. inversion H as [|? l' ? t _ Ht E1 E2]; subst. inversion Ht; subst. exists l'. reflexivity. }
    destruct Hl' as [l' El']. exists l'. split; [exact El'|].
    destruct (lo_equations _ _ _ _ _ _ _ _ _ t_loosened) as [_ [_ [_ [_ [_ [_ [_ [EV ES]]]]]]]].
    split; [rewrite EV; exact Ev|]. split; [rewrite ES; exact Ew|]. intros q1 c1 q' c' Hq HS. destruct (t_sizes q' Hq) as [Z1 [Z2 [Z3 _]]].
    destruct (same_cost F (wanted o rq) vidx (rq_equalities rq) _ _ _ o o' N t_loosened t_symbols t_names t_elements t_x0 t_fresh t_ode
        q1 c1 q' c' HS Z1 Z2 Z3 R4 (rx_alg rx) (rx_eq rx) R2 R8 R6 l v w pts b El Ev Ew Hc) as [l2 [E2 [_ [_ H]]]].
    assert (l2 = l') by congruence. subst l2. exact H.
  Qed.
  Theorem t_trajectory : forall env q' c', describes k pts env s r q' -> followed o' N upts q' c' ->
      exists q1 c1, same_trajectory o vidx N q1 c1 q' c' /\ followed o N upts q1 c1.
  Proof.
    intros env q' c' D Hf. destruct (t_sizes q' (t_fits env q' D)) as [Z1 [Z2 [Z3 Z4]]].
    destruct (lo_variables _ _ _ _ _ _ _ _ _ t_loosened) as [y [Py [_ [Eu _]]]].
    exists (restored o vidx upts q' c'), c'. exact (restored_same o o' vidx y N upts q' c' t_freed Eu t_upts Z4 Hf).
  Qed.

  Lemma t_lift : forall env q' c' q1 c1 q2 c2, vidx = [] \/ k_degree_control k = k_degree k ->
      describes k pts env s r q' -> same_trajectory o vidx N q1 c1 q' c' ->
      shaped o upts pts q2 -> followed o N upts q2 c2 -> same_data o N q1 q2 ->
      exists q2' c2', sized k pts q2' /\ same_trajectory o vidx N q2 c2 q2' c2' /\ followed o' N upts q2' c2' /\ same_data o' N q' q2'.
  Proof.
    intros env q' c' q1 c1 q2 c2 Hd D HS Hsh Hf Hsd.
    pose proof (t_fits env q' D) as Hfit. destruct (t_sizes q' Hfit) as [Z1 [Z2 [Z3 Z4]]].
    destruct (lo_variables _ _ _ _ _ _ _ _ _ t_loosened) as [y [Py [_ [Eu [Ep Et]]]]].
    destruct (lo_same _ _ _ _ _ _ _ _ _ t_loosened) as [_ [E2 _]]. injection E2 as _ _ Eeta Epo Eto.
    destruct (st_rest _ _ _ _ _ _ _ HS) as [S1 [S2 S3]].
    assert (Hd' : vidx = [] \/ upts = pts) by (destruct Hd as [Hd | Hd]; [left; exact Hd|right; unfold upts, pts; rewrite Hd; reflexivity]).
    exists (lifted o o' vidx N upts q' q2 c2), (lifted_c o vidx q2 c2).
    destruct (lifted_same o o' vidx y N upts pts q1 q' q2 c2 Eu (picks_length _ _ _ _ Py) t_upts Hsh Hf Hd' S3 (sd_last_u _ _ _ _ Hsd)) as [L1 L2].
    split; [|split; [exact L1|split; [exact L2|]]].
    - destruct (pr_same _ _ _ _ _ _ t_prepared) as [E [E' _]]. cbv zeta in E.
      injection E as _ Eu' Ep' Et' _ _. injection E' as _ _ Eeta' _ _. destruct (pr_parameters _ _ _ _ _ _ t_prepared) as [Lp _].
      fold (k_model k) in Eu', Ep', Et', Lp.
      constructor; cbn [lifted q_x q_y q_u q_p q_theta q_eta q_x0 q_last_u].
      + exact (sh_x _ _ _ _ Hsh).
      + intros el i. apply (sh_y _ _ _ _ Hsh).
      + intros el. rewrite rowwise_length. symmetry. exact Lp.
      + rewrite app_length, skipn_length, Z1, (sh_p _ _ _ _ Hsh), Ep', Ep, app_length. lia.
      + intros el. rewrite app_length, (sh_theta _ _ _ _ Hsh el), Et'. destruct (Nat.ltb_spec el N) as [Hlt|_].
        * rewrite skipn_length, (Z2 el Hlt), Et, app_length. lia.
        * rewrite repeat_length, Et, app_length. lia.
      + rewrite (sh_eta _ _ _ _ Hsh), Eeta', Eeta. reflexivity.
      + rewrite (sd_x0 _ _ _ _ Hsd), S2. apply (fi_x0 _ _ _ Hfit).
      + rewrite (de_last_u _ _ _ _ _ _ D), map_length.
        destruct HD as [A1 A2 A3 A4 A5 A6 A7 A8]. destruct (DirTopProofs.whole F points dfun k c0 nl s r HF A1 A2 A7) as [-> _].
        unfold parameter_symbols. cbn [ps_last_u]. destruct (k_last_u_par k); [apply seq_length|reflexivity].
    - apply (lifted_data o o' vidx N upts pts q1 q' q2 c2 (rx_mu_sym rx) (rx_nu_par rx)); try assumption.
      + apply (st_p _ _ _ _ _ _ _ HS).
      + apply (st_theta _ _ _ _ _ _ _ HS).
  Qed.
  Lemma t_penalty_nothing : forall q' c' b, restored_equations F rx N q' c' pts ->
      (penalty_total F o' N q' c' (rx_nu_pol rx) (rx_mu_sym rx) g pts b == 0)%Q.
  Proof.
    intros q' c' b H. unfold penalty_total. apply qsum_null. intros el Hel. apply in_seq in Hel. assert (Hlt : el < N) by lia.
    rewrite <- (Qmult_0_r (user_step o' N)). apply Qmult_comp; [reflexivity|]. apply qsum_null. intros tb Htb. cbv zeta.
    rewrite penalty_zero; [ring|].
    apply Forall_forall. intros x Hx. apply in_map_iff in Hx. destruct Hx as [e [<- He]].
    exact (H el (fst tb) Hlt (combine_fst_local _ _ _ Htb) e He).
  Qed.

  Theorem t_bound : forall l v w b, o_L o = [l] -> o_V o = [v] -> o_S o = [w] -> exact_rule pts b -> o_positive o = false ->
      vidx = [] \/ k_degree_control k = k_degree k ->
      exists e, nf nl = [e] /\ forall env q' c', describes k pts env s r q' -> followed o' N upts q' c' -> feasible F env nl ->
        (forall env', map env' (all_mx s) = map env (all_mx s) -> feasible F env' nl -> (eval F env e <= eval F env' e)%Q) ->
        forall q1 c1, same_trajectory o vidx N q1 c1 q' c' ->
        user_within o N q1 c1 upts pts /\
        (restored_equations F rx N q' c' pts -> user_collocated F o N q1 c1 pts) /\
        forall q2 c2, shaped o upts pts q2 -> followed o N upts q2 c2 -> same_data o N q1 q2 ->
          user_collocated F o N q2 c2 pts -> user_within o N q2 c2 upts pts ->
          (user_cost F o N q1 c1 v l w pts b + penalty_total F o' N q' c' (rx_nu_pol rx) (rx_mu_sym rx) g pts b
           <= user_cost F o N q2 c2 v l w pts b)%Q.
  Proof.
    intros l v w b El Ev Ew Hb Hpos Hd. destruct (t_cost l v w b El Ev Ew) as [l' [El' [Ev' [Ew' Hcost]]]].
    assert (Hpos' : o_positive o' = false) by (destruct (lo_same _ _ _ _ _ _ _ _ _ t_loosened) as [_ [_ [_ [_ ->]]]]; exact Hpos).
    destruct (w_C67_optimal F points dfun k c0 nl s r o' x_c x_c0 first l' v w b HF HD El' Ev' Ew' Hb Hpos') as [e [Ee He]].
    exists e. split; [exact Ee|]. intros env q' c' D Hf Hfe Hmin q1 c1 HS. destruct (He env q' c' D Hf Hfe Hmin) as [U [W M]].
    destruct (t_same q1 c1 q' c' (t_fits env q' D) HS) as [I1 I2].
    split; [apply (I2 Hd), W|]. split; [intros Hr; apply I1; split; [exact U|exact Hr]|].
    intros q2 c2 Hsh Hf2 Hsd U2 W2. destruct (t_lift env q' c' q1 c1 q2 c2 Hd D HS Hsh Hf2 Hsd) as [q2' [c2' [Z [HS2 [Hf2' Hsd2]]]]].
    assert (Hfit2 : fits k pts q2') by exact (sized_fits points k q2' Z).
    destruct (t_same q2 c2 q2' c2' Hfit2 HS2) as [J1 J2]. apply J1 in U2. destruct U2 as [U2 R2].
    apply (J2 Hd) in W2.
    assert (C : (user_cost F o' N q' c' v l' w pts b <= user_cost F o' N q2' c2' v l' w pts b)%Q) by exact (M q2' c2' Z Hf2' Hsd2 U2 W2).
    pose proof (Hcost q1 c1 q' c' (t_fits env q' D) HS) as E1. pose proof (Hcost q2 c2 q2' c2' Hfit2 HS2) as E2.
    pose proof (t_penalty_nothing q2' c2' b R2) as E3. lra.
  Qed.

  Theorem t_tolerance : forall l v w b, o_L o = [l] -> o_V o = [v] -> o_S o = [w] -> exact_rule pts b -> o_positive o = false ->
      vidx = [] \/ k_degree_control k = k_degree k -> Forall (fun x => 0 <= x)%Q b ->
      exists e, nf nl = [e] /\ forall env q' c' M eps, describes k pts env s r q' -> followed o' N upts q' c' -> feasible F env nl ->
        (forall env', map env' (all_mx s) = map env (all_mx s) -> feasible F env' nl -> (eval F env e <= eval F env' e)%Q) ->
        (0 <= eps)%Q -> nearly_restored F rx N q' c' pts M eps ->
        forall q1 c1 q2 c2, same_trajectory o vidx N q1 c1 q' c' ->
          shaped o upts pts q2 -> followed o N upts q2 c2 -> same_data o N q1 q2 ->
          user_collocated F o N q2 c2 pts -> user_within o N q2 c2 upts pts ->
          (user_cost F o N q1 c1 v l w pts b <= user_cost F o N q2 c2 v l w pts b + (o_t_f o - o_t_0 o) * (M * eps))%Q.
  Proof.
    intros l v w b El Ev Ew Hb Hpos Hd Hnn. destruct (t_bound l v w b El Ev Ew Hb Hpos Hd) as [e [Ee He]].
    exists e. split; [exact Ee|]. intros env q' c' M eps D Hf Hfe Hmin Heps Hn q1 c1 q2 c2 HS Hsh Hf2 Hsd U2 W2.
    destruct (He env q' c' D Hf Hfe Hmin q1 c1 HS) as [_ [_ B]]. specialize (B q2 c2 Hsh Hf2 Hsd U2 W2).
    destruct (lo_same _ _ _ _ _ _ _ _ _ t_loosened) as [_ [E2 _]]. injection E2 as Et0 Etf _ _ _.
    assert (P : (- ((o_t_f o' - o_t_0 o') * (M * eps)) <= penalty_total F o' N q' c' (rx_nu_pol rx) (rx_mu_sym rx) g pts b)%Q).
    { apply penalty_total_least; [exact t_elements|exact t_horizon|exact Hb|exact t_pts|exact Hnn|].
      intros el tau Hel Htau. destruct (Hn el tau Hel Htau) as [N1 [N2 N3]].
      set (env1 := user_point (rx_problem rx) N q' c' el tau) in *. change (user_point o' N q' c' el tau) with env1.
      unfold penalty_value.
      assert (G1 : Forall (fun x => Qabs x <= eps)%Q (map (eval F env1) g)) by (apply Forall_map; exact N1).
      assert (G2 : Forall (fun x => 0 <= x)%Q (map env1 (rx_mu_sym rx))) by (apply Forall_map; exact N2).
      pose proof (dot_least (map (eval F env1) (rx_nu_pol rx)) _ eps G1 Heps) as D1. rewrite map_map in D1.
      pose proof (squares_nonneg _ (map (eval F env1) g) G2) as D2.
      assert (D3 : (qsum (map (fun n => Qabs (eval F env1 n)) (rx_nu_pol rx)) * eps <= M * eps)%Q) by (apply Qmult_le_compat_r; assumption).
      lra. }
    rewrite Et0, Etf in P. lra.
  Qed.
End Top.

(** ** The statements *)

Lemma w_C81_same : forall F same points dfun opts rq o c rx k c0 nl s r x_c x_c0 first,
    respects F -> relaxation same points opts rq o c rx ->
    direct_setting points dfun k c0 nl s r (rx_problem rx) x_c x_c0 first ->
    let N := k_elements k in let pts := points (k_degree k) in let upts := points (k_degree_control k) in
    forall q c1 q' c', fits k pts q' -> same_trajectory o (freed o rq) N q c1 q' c' ->
      (user_collocated F o N q c1 pts <->
       user_collocated F (rx_problem rx) N q' c' pts /\ restored_equations F rx N q' c' pts) /\
      (freed o rq = [] \/ k_degree_control k = k_degree k ->
       (user_within (rx_problem rx) N q' c' upts pts <-> user_within o N q c1 upts pts)).
Proof.
  intros F same points dfun opts rq o c rx k c0 nl s r x_c x_c0 first HF HR HD N pts upts q c1 q' c' Hq HS.
  exact (t_same F same points dfun opts rq o c rx k c0 nl s r x_c x_c0 first HF HR HD q c1 q' c' Hq HS).
Qed.
Lemma w_C81_cost : forall F same points dfun opts rq o c rx k c0 nl s r x_c x_c0 first l v w b,
    respects F -> relaxation same points opts rq o c rx ->
    direct_setting points dfun k c0 nl s r (rx_problem rx) x_c x_c0 first ->
    o_L o = [l] -> o_V o = [v] -> o_S o = [w] ->
    let N := k_elements k in let pts := points (k_degree k) in
    exists l', o_L (rx_problem rx) = [l'] /\ o_V (rx_problem rx) = [v] /\ o_S (rx_problem rx) = [w] /\
    forall q c1 q' c', fits k pts q' -> same_trajectory o (freed o rq) N q c1 q' c' ->
      (user_cost F (rx_problem rx) N q' c' v l' w pts b ==
       user_cost F o N q c1 v l w pts b +
       penalty_total F (rx_problem rx) N q' c' (rx_nu_pol rx) (rx_mu_sym rx) (rx_alg rx ++ rx_eq rx) pts b)%Q.
Proof.
  intros F same points dfun opts rq o c rx k c0 nl s r x_c x_c0 first l v w b HF HR HD El Ev Ew.
  exact (t_cost F same points dfun opts rq o c rx k c0 nl s r x_c x_c0 first HF HR HD l v w b El Ev Ew).
Qed.
Lemma w_C81_trajectory : forall F same points dfun opts rq o c rx k c0 nl s r x_c x_c0 first,
    respects F -> relaxation same points opts rq o c rx ->
    direct_setting points dfun k c0 nl s r (rx_problem rx) x_c x_c0 first ->
    let N := k_elements k in let pts := points (k_degree k) in let upts := points (k_degree_control k) in
    forall env q' c', describes k pts env s r q' -> followed (rx_problem rx) N upts q' c' ->
      exists q c1, same_trajectory o (freed o rq) N q c1 q' c' /\ followed o N upts q c1.
Proof.
  intros F same points dfun opts rq o c rx k c0 nl s r x_c x_c0 first HF HR HD N pts upts env q' c' D Hf.
  exact (t_trajectory F same points dfun opts rq o c rx k c0 nl s r x_c x_c0 first HF HR HD env q' c' D Hf).
Qed.
Lemma w_C81_lifted : forall F same points dfun opts rq o c rx k c0 nl s r x_c x_c0 first,
    respects F -> relaxation same points opts rq o c rx ->
    direct_setting points dfun k c0 nl s r (rx_problem rx) x_c x_c0 first ->
    freed o rq = [] \/ k_degree_control k = k_degree k ->
    let N := k_elements k in let pts := points (k_degree k) in let upts := points (k_degree_control k) in
    forall env q' c' q c1 q2 c2, describes k pts env s r q' -> same_trajectory o (freed o rq) N q c1 q' c' ->
      shaped o upts pts q2 -> followed o N upts q2 c2 -> same_data o N q q2 ->
      exists q2' c2', sized k pts q2' /\ same_trajectory o (freed o rq) N q2 c2 q2' c2' /\
        followed (rx_problem rx) N upts q2' c2' /\ same_data (rx_problem rx) N q' q2'.
Proof.
  intros F same points dfun opts rq o c rx k c0 nl s r x_c x_c0 first HF HR HD Hd N pts upts env q' c' q c1 q2 c2 D HS Hsh Hf Hsd.
  exact (t_lift F same points dfun opts rq o c rx k c0 nl s r x_c x_c0 first HF HR HD env q' c' q c1 q2 c2 Hd D HS Hsh Hf Hsd).
Qed.
Lemma w_C81_bound : forall F same points dfun opts rq o c rx k c0 nl s r x_c x_c0 first l v w b,
    respects F -> relaxation same points opts rq o c rx ->
    direct_setting points dfun k c0 nl s r (rx_problem rx) x_c x_c0 first ->
    o_L o = [l] -> o_V o = [v] -> o_S o = [w] -> exact_rule (points (k_degree k)) b -> o_positive o = false ->
    freed o rq = [] \/ k_degree_control k = k_degree k ->
    let N := k_elements k in let pts := points (k_degree k) in let upts := points (k_degree_control k) in
    exists e, nf nl = [e] /\
    forall env q' c', describes k pts env s r q' -> followed (rx_problem rx) N upts q' c' -> feasible F env nl ->
      (forall env', map env' (all_mx s) = map env (all_mx s) -> feasible F env' nl -> (eval F env e <= eval F env' e)%Q) ->
      forall q c1, same_trajectory o (freed o rq) N q c1 q' c' ->
      user_within o N q c1 upts pts /\
      forall q2 c2, shaped o upts pts q2 -> followed o N upts q2 c2 -> same_data o N q q2 ->
        user_collocated F o N q2 c2 pts -> user_within o N q2 c2 upts pts ->
        (user_cost F o N q c1 v l w pts b +
         penalty_total F (rx_problem rx) N q' c' (rx_nu_pol rx) (rx_mu_sym rx) (rx_alg rx ++ rx_eq rx) pts b
         <= user_cost F o N q2 c2 v l w pts b)%Q.
Proof.
  intros F same points dfun opts rq o c rx k c0 nl s r x_c x_c0 first l v w b HF HR HD El Ev Ew Hb Hpos Hd N pts upts.
  destruct (t_bound F same points dfun opts rq o c rx k c0 nl s r x_c x_c0 first HF HR HD l v w b El Ev Ew Hb Hpos Hd) as [e [Ee He]].
  exists e. split; [exact Ee|]. intros env q' c' D Hf Hfe Hmin q c1 HS. destruct (He env q' c' D Hf Hfe Hmin q c1 HS) as [W [_ B]].
  split; [exact W|exact B].
Qed.
Lemma w_C81_optimal : forall F same points dfun opts rq o c rx k c0 nl s r x_c x_c0 first l v w b,
    respects F -> relaxation same points opts rq o c rx ->
    direct_setting points dfun k c0 nl s r (rx_problem rx) x_c x_c0 first ->
    o_L o = [l] -> o_V o = [v] -> o_S o = [w] -> exact_rule (points (k_degree k)) b -> o_positive o = false ->
    freed o rq = [] \/ k_degree_control k = k_degree k ->
    let N := k_elements k in let pts := points (k_degree k) in let upts := points (k_degree_control k) in
    exists e, nf nl = [e] /\
    forall env q' c', describes k pts env s r q' -> followed (rx_problem rx) N upts q' c' -> feasible F env nl ->
      (forall env', map env' (all_mx s) = map env (all_mx s) -> feasible F env' nl -> (eval F env e <= eval F env' e)%Q) ->
      restored_equations F rx N q' c' pts ->
      forall q c1, same_trajectory o (freed o rq) N q c1 q' c' ->
      user_collocated F o N q c1 pts /\ user_within o N q c1 upts pts /\
      forall q2 c2, shaped o upts pts q2 -> followed o N upts q2 c2 -> same_data o N q q2 ->
        user_collocated F o N q2 c2 pts -> user_within o N q2 c2 upts pts ->
        (user_cost F o N q c1 v l w pts b <= user_cost F o N q2 c2 v l w pts b)%Q.
Proof.
  intros F same points dfun opts rq o c rx k c0 nl s r x_c x_c0 first l v w b HF HR HD El Ev Ew Hb Hpos Hd N pts upts.
  destruct (t_bound F same points dfun opts rq o c rx k c0 nl s r x_c x_c0 first HF HR HD l v w b El Ev Ew Hb Hpos Hd) as [e [Ee He]].
  exists e. split; [exact Ee|]. intros env q' c' D Hf Hfe Hmin Hr q c1 HS. destruct (He env q' c' D Hf Hfe Hmin q c1 HS) as [W [U B]].
  split; [exact (U Hr)|]. split; [exact W|]. intros q2 c2 Hsh Hf2 Hsd U2 W2. specialize (B q2 c2 Hsh Hf2 Hsd U2 W2).
  pose proof (t_penalty_nothing F points rx k q' c' b Hr) as Z. subst N pts upts. lra.
Qed.
Lemma w_C81_tolerance : forall F same points dfun opts rq o c rx k c0 nl s r x_c x_c0 first l v w b,
    respects F -> relaxation same points opts rq o c rx ->
    direct_setting points dfun k c0 nl s r (rx_problem rx) x_c x_c0 first ->
    o_L o = [l] -> o_V o = [v] -> o_S o = [w] -> exact_rule (points (k_degree k)) b -> o_positive o = false ->
    freed o rq = [] \/ k_degree_control k = k_degree k -> Forall (fun x => 0 <= x)%Q b ->
    let N := k_elements k in let pts := points (k_degree k) in let upts := points (k_degree_control k) in
    exists e, nf nl = [e] /\
    forall env q' c' M eps, describes k pts env s r q' -> followed (rx_problem rx) N upts q' c' -> feasible F env nl ->
      (forall env', map env' (all_mx s) = map env (all_mx s) -> feasible F env' nl -> (eval F env e <= eval F env' e)%Q) ->
      (0 <= eps)%Q -> nearly_restored F rx N q' c' pts M eps ->
      forall q c1 q2 c2, same_trajectory o (freed o rq) N q c1 q' c' ->
        shaped o upts pts q2 -> followed o N upts q2 c2 -> same_data o N q q2 ->
        user_collocated F o N q2 c2 pts -> user_within o N q2 c2 upts pts ->
        (user_cost F o N q c1 v l w pts b <= user_cost F o N q2 c2 v l w pts b + (o_t_f o - o_t_0 o) * (M * eps))%Q.
Proof.
  intros F same points dfun opts rq o c rx k c0 nl s r x_c x_c0 first l v w b HF HR HD El Ev Ew Hb Hpos Hd Hnn N pts upts.
  exact (t_tolerance F same points dfun opts rq o c rx k c0 nl s r x_c x_c0 first HF HR HD l v w b El Ev Ew Hb Hpos Hd Hnn).
Qed.

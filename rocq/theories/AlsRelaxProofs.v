(** The relaxed problem as a whole. *)
From Coq Require Import String Qabs Lqa.
From Verif Require Import Base BaseProofs UtilModel UtilProofs ExprModel ExprProofs NlpModel SysModel SysSpec SysProofs
   OcpModel OcpSpec OcpProofs OcpMoreProofs SimModel LagModel LagSpec LagProofs DiscModel DiscSpec ColSpec ColEvalProofs
   DirSpec DirProofs AugModel AugSpec AugRelaxProofs AlsSpec.
Local Open Scope list_scope.
Local Open Scope cmd_scope.

Lemma others_none : forall (A : Type) (l : list A), others [] l = l.
Proof. intros A l. rewrite others_from. apply left_all. reflexivity. Qed.

(** Before the multipliers become polynomials. *)
Record stage (F : nat -> Q -> Q) (idx vidx eqs : list nat) (ga ge : list expr) (nu mu : list sym) (o o' : ocp) : Prop := mkStage
  { sg_same : let m := o_model o in let m' := o_model o' in
      (m_x m', m_x_0 m', m_t m', m_tau m') = (m_x m, m_x_0 m, m_t m, m_tau m) /\
      (o_t_0 o', o_t_f o', o_eta o', o_p_opt o', o_theta_opt o') = (o_t_0 o, o_t_f o, o_eta o, o_p_opt o, o_theta_opt o) /\
      (o_x_min o', o_x_max o', (o_p_min o', o_p_max o', o_th_min o', o_th_max o')) =
      (o_x_min o, o_x_max o, (o_p_min o, o_p_max o, o_th_min o, o_th_max o)) /\
      o_when_ineq o' = o_when_ineq o /\ o_positive o' = o_positive o;
    sg_variables : exists y, picks (m_y (o_model o)) vidx y /\
      m_y (o_model o') = others vidx (m_y (o_model o)) /\ m_u (o_model o') = m_u (o_model o) ++ y /\
      m_p (o_model o') = m_p (o_model o) ++ mu /\ m_theta (o_model o') = m_theta (o_model o);
    sg_bounds : exists lo hi, picks (o_y_min o) vidx lo /\ picks (o_y_max o) vidx hi /\
      o_y_min o' = others vidx (o_y_min o) /\ o_y_max o' = others vidx (o_y_max o) /\
      o_u_min o' = o_u_min o ++ lo /\ o_u_max o' = o_u_max o ++ hi /\
      o_du_min o' = o_du_min o ++ repeat NInf (length vidx) /\ o_du_max o' = o_du_max o ++ repeat PInf (length vidx);
    sg_equations : m_ode (o_model o') = m_ode (o_model o) /\ m_alg (o_model o') = others idx (m_alg (o_model o)) /\
      o_g_eq o' = others eqs (o_g_eq o) /\ o_g_ineq o' = o_g_ineq o /\
      o_h_initial o' = o_h_initial o /\ o_h_final o' = o_h_final o /\ o_h o' = o_h o /\ o_V o' = o_V o /\ o_S o' = o_S o;
    sg_when : o_when_eq o' = others eqs (o_when_eq o);
    sg_cost : picks (m_alg (o_model o)) idx ga /\ picks (o_g_eq o) eqs ge /\
      length nu = length (ga ++ ge) /\ length mu = length (ga ++ ge) /\ with_penalty F nu mu (ga ++ ge) (o_L o) (o_L o') }.

Lemma stage_none : forall F o, stage F [] [] [] [] [] [] [] o o.
Proof.
  intros F o. constructor.
  - cbv zeta. repeat match goal with |- _ /\ _ => split end; reflexivity.
  - exists []. rewrite others_none, !app_nil_r. repeat match goal with |- _ /\ _ => split end; reflexivity.
  - exists [], []. rewrite !others_none. cbn [length repeat]. rewrite !app_nil_r. repeat match goal with |- _ /\ _ => split end; reflexivity.
  - rewrite !others_none. repeat match goal with |- _ /\ _ => split end; reflexivity.
  - rewrite others_none. reflexivity.
  - split; [reflexivity|]. split; [reflexivity|]. split; [reflexivity|]. split; [reflexivity|]. cbn [app]. apply with_penalty_none.
Qed.

Lemma stage_algebraic : forall F same opts idx vidx s s',
    (forall a b, same a b = true <-> a = b) ->
    NoDup (m_y (o_model (rx_problem s))) -> NoDup (m_alg (o_model (rx_problem s))) ->
    relax_algebraic_equations same opts idx vidx s = (s', Ok tt) ->
    exists ga nu mu, stage F idx vidx [] ga [] nu mu (rx_problem s) (rx_problem s') /\ multiplied opts (length ga) nu mu s s' /\
      rx_alg s' = rx_alg s ++ ga /\ rx_eq s' = rx_eq s.
Proof.
  intros F same opts idx vidx s s' Hs Dy Da H.
  pose proof (relax_algebraic_ok F same opts idx vidx s s' Hs Dy Da H) as R. cbv zeta in R.
  destruct R as [g [y [lo [hi [nu [mu [L' [gg [Pg [Py [Plo [Phi [M [W [Ra [Re P]]]]]]]]]]]]]]]].
  exists g, nu, mu. split; [|split; [exact M|split; [exact Ra|exact Re]]]. rewrite P. set (o := rx_problem s) in *.
  assert (Ly : length y = length vidx) by exact (picks_length _ _ _ _ Py).
  constructor.
  - cbv zeta. repeat match goal with |- _ /\ _ => split end; reflexivity.
  - exists y. split; [exact Py|]. repeat match goal with |- _ /\ _ => split end; reflexivity.
  - exists lo, hi. split; [exact Plo|]. split; [exact Phi|]. rewrite <- Ly. repeat match goal with |- _ /\ _ => split end; reflexivity.
  - rewrite others_none. repeat match goal with |- _ /\ _ => split end; reflexivity.
  - rewrite others_none. reflexivity.
  - rewrite app_nil_r. split; [exact Pg|]. split; [reflexivity|]. split; [exact (mp_nu_n _ _ _ _ _ _ M)|]. split; [exact (mp_mu_n _ _ _ _ _ _ M)|]. exact W.
Qed.

Lemma stage_equalities : forall F opts idx vidx eqs ga nu mu o s s',
    NoDup eqs -> stage F idx vidx [] ga [] nu mu o (rx_problem s) -> relax_time_equalities opts eqs s = (s', Ok tt) ->
    exists ge nu' mu', stage F idx vidx eqs ga ge (nu ++ nu') (mu ++ mu') o (rx_problem s') /\ multiplied opts (length ge) nu' mu' s s' /\
      rx_alg s' = rx_alg s /\ rx_eq s' = rx_eq s ++ ge.
Proof.
  intros F opts idx vidx eqs ga nu mu o s s' De [A B C D E G] H.
  pose proof (relax_equalities_ok F opts eqs s s' De H) as R. cbv zeta in R.
  destruct R as [ge [nu' [mu' [L' [Pg [M [W [Ra [Re P]]]]]]]]].
  exists ge, nu', mu'. split; [|split; [exact M|split; [exact Ra|exact Re]]]. rewrite P. set (o1 := rx_problem s) in *.
  destruct D as [D1 [D2 [D3 D4]]]. rewrite others_none in D3, E.
  destruct G as [G1 [_ [G2 [G3 G4]]]]. rewrite app_nil_r in G2, G3, G4.
  constructor.
  - exact A.
  - destruct B as [y [B1 [B2 [B3 [B4 B5]]]]]. exists y. split; [exact B1|]. split; [exact B2|]. split; [exact B3|]. split; [|exact B5].
    change (m_p (o_model o1) ++ mu' = m_p (o_model o) ++ mu ++ mu'). rewrite B4, <- app_assoc. reflexivity.
  - exact C.
  - split; [exact D1|]. split; [exact D2|]. split; [|exact D4]. change (others eqs (o_g_eq o1) = others eqs (o_g_eq o)). rewrite D3. reflexivity.
  - change (others eqs (o_when_eq o1) = others eqs (o_when_eq o)). rewrite E. reflexivity.
  - split; [exact G1|]. split; [rewrite <- D3; exact Pg|].
    rewrite !app_length. rewrite G2, G3, (mp_nu_n _ _ _ _ _ _ M), (mp_mu_n _ _ _ _ _ _ M). split; [reflexivity|]. split; [reflexivity|].
    apply (with_penalty_trans F nu mu ga nu' mu' ge (o_L o) (o_L o1)); assumption.
Qed.

Lemma in_written : forall o e,
    In e (o_L o) \/ In e (o_V o) \/ In e (o_S o) \/ In e (o_h_initial o) \/ In e (o_h_final o) \/ In e (o_h o) \/
    In e (o_g_ineq o) \/ In e (o_g_eq o) \/ In e (m_alg (o_model o)) \/ (exists k, In (k, Some e) (m_ode (o_model o))) ->
    In e (written o).
Proof.
  intros o e H. unfold written. rewrite !in_app_iff.
  destruct H as [H|[H|[H|[H|[H|[H|[H|[H|[H|[k H]]]]]]]]]]; try tauto.
  do 9 right. apply in_flat_map. exists (k, Some e). split; [exact H|left; reflexivity].
Qed.

Lemma others_incl : forall (A : Type) idx (l : list A), incl (others idx l) l.
Proof.
  intros A idx l x H. unfold others in H. apply in_map_iff in H. destruct H as [[i v] [<- Hf]].
  apply filter_In in Hf. apply (in_combine_r _ _ _ _ (proj1 Hf)).
Qed.

Lemma stage_parametrised : forall F points opts idx vidx eqs ga ge nu mu o s s' c,
    stage F idx vidx eqs ga ge nu mu o (rx_problem s) -> multiplied opts (length (ga ++ ge)) nu mu (start_relaxing o c) s ->
    written_before o c -> parametrised points opts ->
    parametrize_nu points opts s = (s', Ok tt) ->
    loosened F idx vidx eqs (rx_mu_sym s') (rx_nu_par s') (rx_nu_pol s') o (rx_problem s') /\
    rx_alg s' = rx_alg s /\ rx_eq s' = rx_eq s /\
    Forall (fun v => c <= v)%nat (rx_mu_sym s' ++ rx_nu_par s').
Proof.
  intros F points opts idx vidx eqs ga ge nu mu o s s' c [A B C D E G] M [Old _] [_ Hd [Hl Hdist]] H.
  unfold parametrize_nu in H.
  assert (Hn : rx_n s = length (ga ++ ge)) by (rewrite (mp_n _ _ _ _ _ _ M); reflexivity).
  rewrite Hn in H. set (tau := m_tau (o_model (rx_problem s))) in *.
  pose proof (poly_values F points tau (length (ga ++ ge)) (al_degree opts) (rx_next s) Hd Hl Hdist) as Hp.
  pose proof (w_C08_parameter_count points tau (length (ga ++ ge)) (al_degree opts) (rx_next s) false) as Hc. cbn [andb] in Hc.
  assert (Hnew : Forall (fun v => rx_next s <= v)%nat (snd (create_polynomial_approximation points tau (length (ga ++ ge)) (al_degree opts) (rx_next s) false))).
  { unfold create_polynomial_approximation. cbn [andb snd]. apply Forall_forall. intros v Hv. unfold vec_points in Hv.
    apply in_flat_map in Hv. destruct Hv as [j [_ Hv]]. apply in_map_iff in Hv. destruct Hv as [i [<- _]]. unfold point_sym. lia. }
  destruct (create_polynomial_approximation points tau (length (ga ++ ge)) (al_degree opts) (rx_next s) false) as [pol par].
  destruct Hp as [_ [_ [Lpol _]]]. cbn [snd] in Hnew.
  apply cbind_ok in H. destruct H as [s4 [u [H4 H]]]. unfold AugModel.new_symbols in H4.
  assert (E4 : s4 = mkRelaxing (rx_problem s) (rx_n s) (rx_nu s) (rx_mu_sym s) (rx_mu s) (rx_alg s) (rx_eq s)
                       (rx_nu_pol s) (rx_nu_par s) (rx_next s + length par)) by congruence. clear H4.
  apply cbind_ok in H. destruct H as [s5 [[] [H5 H]]]. apply cmodify_ok in H5.
  apply cbind_ok in H. destruct H as [s6 [[] [H6 H]]]. apply on_problem_ok in H6. destruct H6 as [o6 [H6 E6]].
  apply on_problem_ok in H. destruct H as [o7 [H7 E7]]. apply on_model_ok in H7. destruct H7 as [m7 [H7 Eo7]].
  unfold include_theta in H7. apply cmodify_ok in H7.
  assert (P5 : rx_problem s5 = rx_problem s) by (rewrite H5, E4; reflexivity). rewrite P5 in H6.
  assert (P6 : rx_problem s6 = o6) by (rewrite E6; reflexivity).
  assert (Enu : rx_nu s = nu) by (rewrite (mp_nu _ _ _ _ _ _ M); reflexivity). rewrite Enu in H6.
  assert (Emu : rx_mu_sym s' = mu).
  { rewrite E7, E6, H5, E4. cbn. rewrite (mp_mu _ _ _ _ _ _ M). reflexivity. }
  assert (Epol : rx_nu_pol s' = pol) by (rewrite E7, E6, H5; reflexivity).
  assert (Epar : rx_nu_par s' = par) by (rewrite E7, E6, H5; reflexivity).
  assert (P' : rx_problem s' = set_o_model (SysModel.set_theta (m_theta (o_model o6) ++ par) (o_model o6)) o6).
  { rewrite E7. cbn [rx_problem set_problem]. rewrite Eo7, H7, P6. reflexivity. }
  apply replaced_problem in H6. destruct H6 as [Len H6]. cbv zeta in H6. rewrite H6 in P'.
  rewrite Emu, Epol, Epar, P'. set (o1 := rx_problem s) in *. clear P' H6 P6 P5 H7 Eo7.
  assert (Hmu : forall v, In v (nu ++ mu) -> (c <= v)%nat).
  { intros v Hv. pose proof (mp_new _ _ _ _ _ _ M) as N. rewrite Forall_forall in N. specialize (N v Hv). cbv beta in N.
    change (rx_next (start_relaxing o c)) with c in N. lia. }
  assert (Fresh : forall e, In e (written o) -> forall v, In v nu -> ~ In v (symbols e)).
  { intros e He v Hv Hm. specialize (Old e v He Hm). specialize (Hmu v (in_or_app _ _ _ (or_introl Hv))). lia. }
  assert (Sub : forall l, incl l (written o) -> subst_vec l nu pol = l).
  { intros l Hi. apply subst_vec_fresh. intros e v He Hv. apply Fresh; [apply Hi; exact He|exact Hv]. }
  assert (Ode : subst_ode (m_ode (o_model o)) nu pol = m_ode (o_model o)).
  { apply subst_ode_fresh. intros k e v Hi Hv. apply Fresh; [|exact Hv]. apply in_written. do 9 right. exists k. exact Hi. }
  destruct D as [D1 [D2 [D3 [D4 [D5 [D6 [D7 [D8 D9]]]]]]]].
  split; [|split; [rewrite E7, E6, H5, E4; reflexivity|split; [rewrite E7, E6, H5, E4; reflexivity|]]].
  2:{ apply Forall_app. split; [apply Forall_forall; intros v Hv; apply Hmu, in_or_app; right; exact Hv|].
      revert Hnew. apply Forall_impl. intros v Hv. pose proof (mp_next _ _ _ _ _ _ M) as N. change (rx_next (start_relaxing o c)) with c in N. lia. }
  constructor.
  - exact A.
  - destruct B as [y [B1 [B2 [B3 [B4 B5]]]]]. exists y. split; [exact B1|]. split; [exact B2|]. split; [exact B3|]. split; [exact B4|].
    change (m_theta (o_model o1) ++ par = m_theta (o_model o) ++ par). rewrite B5. reflexivity.
  - exact C.
  - split; [change (subst_ode (m_ode (o_model o1)) nu pol = m_ode (o_model o)); rewrite D1; exact Ode|].
    split; [change (subst_vec (m_alg (o_model o1)) nu pol = others idx (m_alg (o_model o))); rewrite D2; apply Sub;
            intros e He; apply in_written; apply others_incl in He; tauto|].
    split; [change (subst_vec (o_g_eq o1) nu pol = others eqs (o_g_eq o)); rewrite D3; apply Sub;
            intros e He; apply in_written; apply others_incl in He; tauto|].
    split; [change (subst_vec (o_g_ineq o1) nu pol = o_g_ineq o); rewrite D4; apply Sub; intros e He; apply in_written; tauto|].
    split; [change (subst_vec (o_h_initial o1) nu pol = o_h_initial o); rewrite D5; apply Sub; intros e He; apply in_written; tauto|].
    split; [change (subst_vec (o_h_final o1) nu pol = o_h_final o); rewrite D6; apply Sub; intros e He; apply in_written; tauto|].
    split; [change (subst_vec (o_h o1) nu pol = o_h o); rewrite D7; apply Sub; intros e He; apply in_written; tauto|].
    split; [change (subst_vec (o_V o1) nu pol = o_V o); rewrite D8; apply Sub; intros e He; apply in_written; tauto|].
    change (subst_vec (o_S o1) nu pol = o_S o); rewrite D9; apply Sub; intros e He; apply in_written; tauto.
  - exact E.
  - destruct G as [G1 [G2 [G3 [G4 W]]]]. exists ga, ge. split; [exact G1|]. split; [exact G2|]. split; [exact Lpol|]. split; [exact G4|].
    intros env. match goal with |- Forall2 _ _ (o_L ?x) => change (o_L x) with (subst_vec (o_L o1) nu pol) end.
    pose proof (subst_vec_evaluates F env nu pol (o_L o1)) as HL.
    set (env' := assign env nu (map (eval F env) pol)) in *. specialize (W env').
    assert (Hsame : forall e, In e (written o) -> eval F env' e = eval F env e).
    { intros e He. apply eval_ext. intros v Hv. unfold env'. apply SysProofs.assign_notin. intros I. exact (Fresh e He v I Hv). }
    assert (Eg : map (eval F env') (ga ++ ge) = map (eval F env) (ga ++ ge)).
    { apply map_ext_in. intros e He. apply Hsame, in_written. apply in_app_or in He.
      destruct He as [He|He]; [pose proof (picks_incl _ _ _ _ _ G1 He)|pose proof (picks_incl _ _ _ _ _ G2 He)]; tauto. }
    assert (Nd := mp_distinct _ _ _ _ _ _ M).
    assert (En : map env' nu = map (eval F env) pol).
    { apply assign_map; [exact (NoDup_app_l _ _ _ Nd)|rewrite map_length; exact Len]. }
    assert (Em : map env' mu = map env mu).
    { apply map_ext_in. intros v Hv. apply SysProofs.assign_notin. intros I. exact (NoDup_app_disjoint _ _ _ v Nd I Hv). }
    rewrite Eg, En, Em in W.
    assert (Hin : forall l, In l (o_L o) -> eval F env' l = eval F env l) by (intros l Hl'; apply Hsame, in_written; tauto).
    clear - W HL Hin. revert HL Hin. generalize (subst_vec (o_L o1) nu pol). induction W as [|a b l1 l2 Hab Hl IH]; intros L6 HL Hin; inversion HL; subst; constructor.
    + match goal with H : evaluates_as _ _ _ b _ |- _ => unfold evaluates_as in H; rewrite H end.
      rewrite Hab, (Hin a) by (left; reflexivity). reflexivity.
    + apply IH; [assumption|]. intros l Hl'. apply Hin. right. exact Hl'.
Qed.

Theorem relax_loosens : forall F same points opts rq o c s,
    (forall a b, same a b = true <-> a = b) -> NoDup (m_y (o_model o)) -> NoDup (m_alg (o_model o)) ->
    NoDup (rq_equalities rq) -> written_before o c -> parametrised points opts -> rq_states rq = false ->
    relax same points opts rq (start_relaxing o c) = (s, Ok tt) ->
    loosened F (wanted o rq) (freed o rq) (rq_equalities rq) (rx_mu_sym s) (rx_nu_par s) (rx_nu_pol s) o (rx_problem s) /\
    picks (m_alg (o_model o)) (wanted o rq) (rx_alg s) /\ picks (o_g_eq o) (rq_equalities rq) (rx_eq s) /\
    Forall (fun v => c <= v)%nat (rx_mu_sym s ++ rx_nu_par s).
Proof.
  intros F same points opts rq o c s' Hs Dy Da De Hold Hpar Hst H.
  unfold relax in H. cbv zeta in H. change (rx_problem (start_relaxing o c)) with o in H.
  fold (wanted o rq) in H. unfold freed. set (vidx := match rq_algebraic_var rq with Some l => l | None => wanted o rq end) in *.
  set (s0 := start_relaxing o c) in *.
  apply cbind_ok in H. destruct H as [s [a [Ha H]]]. apply of_problem_ok in Ha. destruct Ha as [-> Ha].
  apply index_vec_picks in Ha. change (rx_problem s0) with o in Ha.
  apply cbind_ok in H. destruct H as [s1 [[] [H1 H]]].
  assert (S1 : exists nu mu, stage F (wanted o rq) (match wanted o rq with [] => [] | _ => vidx end) [] a [] nu mu o (rx_problem s1) /\
                 multiplied opts (length a) nu mu s0 s1 /\ rx_alg s1 = a /\ rx_eq s1 = []).
  { pose proof (picks_length _ _ _ _ Ha) as La. destruct a as [|e a].
    - destruct (wanted o rq) as [|i idx]; [|discriminate]. assert (s1 = s0) by (unfold cret in H1; congruence). subst s1.
      exists [], []. split; [apply stage_none|]. split; [apply multiplied_none|]. split; reflexivity.
    - destruct (stage_algebraic F same opts _ _ s0 s1 Hs Dy Da H1) as [ga [nu [mu [S [M [Ra Re]]]]]].
      assert (ga = e :: a) by exact (picks_fun _ _ _ _ _ (proj1 (sg_cost _ _ _ _ _ _ _ _ _ _ S)) Ha). subst ga.
      destruct (wanted o rq) as [|i idx]; [discriminate|]. exists nu, mu. split; [exact S|]. split; [exact M|]. split; [exact Ra|exact Re]. }
  destruct S1 as [nu [mu [S1 [M1 [Ra1 Re1]]]]].
  set (v2 := match wanted o rq with [] => [] | _ => vidx end) in *.
  apply cbind_ok in H. destruct H as [s [b [Hb H]]]. apply of_problem_ok in Hb. destruct Hb as [-> Hb].
  apply index_vec_picks in Hb.
  apply cbind_ok in H. destruct H as [s2 [[] [H2 H]]].
  assert (S2 : exists ge nu mu, stage F (wanted o rq) v2 (rq_equalities rq) a ge nu mu o (rx_problem s2) /\
                 multiplied opts (length (a ++ ge)) nu mu s0 s2 /\ rx_alg s2 = a /\ rx_eq s2 = ge).
  { destruct b as [|e b].
    - apply picks_length in Hb. destruct (rq_equalities rq); [|discriminate].
      assert (s2 = s1) by (unfold cret in H2; congruence). subst s2. exists [], nu, mu. rewrite app_nil_r. auto.
    - destruct (stage_equalities F opts _ _ _ _ _ _ _ _ _ De S1 H2) as [ge [nu' [mu' [S [M [Ra Re]]]]]].
      exists ge, (nu ++ nu'), (mu ++ mu'). split; [exact S|]. rewrite app_length. split; [apply (multiplied_trans _ _ _ _ _ _ _ _ s1); assumption|].
      rewrite Ra, Re, Ra1, Re1. split; reflexivity. }
  destruct S2 as [ge [nu2 [mu2 [S2 [M2 [Ra2 Re2]]]]]].
  apply cbind_ok in H. destruct H as [s3 [[] [H3 H]]]. rewrite Hst in H3.
  assert (s3 = s2) by (unfold cret in H3; congruence). subst s3.
  destruct Hpar as [[S0 S0'] Hp Hq]. rewrite S0, S0' in H. cbn [orb] in H.
  destruct (stage_parametrised F points opts _ _ _ _ _ _ _ o s2 s' c S2 M2 Hold (mkParametrised _ _ (conj S0 S0') Hp Hq) H)
    as [R [Ra [Re N]]].
  split; [exact R|]. rewrite Ra, Re, Ra2, Re2. destruct (sg_cost _ _ _ _ _ _ _ _ _ _ S2) as [G1 [G2 _]].
  split; [exact G1|]. split; [exact G2|exact N].
Qed.

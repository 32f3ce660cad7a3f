(** Further proofs about the augmented Lagrangian method: the penalty, weights, histories. *)
From Coq Require Import String Qabs Lqa Qminmax Qpower.
From Verif Require Import Base BaseProofs UtilModel UtilProofs ExprModel ExprProofs NlpModel SysModel SysSpec SysProofs
   OcpModel OcpSpec OcpProofs SimModel LagModel LagSpec DiscModel DiscSpec DiscProofs PlantProofs ColSpec ColAssemblyProofs AugModel AugSpec
   AugProofs AugLoopProofs AugRunProofs AugRelaxProofs.
Local Open Scope list_scope.
Local Open Scope cmd_scope.

(** ** The penalty *)

Lemma penalty_zero : forall nu mu g, Forall (fun x => x == 0)%Q g -> (penalty_value nu mu g == 0)%Q.
Proof.
  intros nu mu g H. unfold penalty_value.
  assert (D : forall a b, Forall (fun x => x == 0)%Q b -> (dot a b == 0)%Q).
  { intros a b Hb. revert a. induction Hb as [|x b Hx Hb IH]; intros [|y a]; cbn [dot]; try reflexivity. rewrite Hx, IH. ring. }
  rewrite (D nu g H), (D mu); [ring|]. clear -H. induction H as [|x g Hx H IH]; cbn [map]; constructor; [rewrite Hx; ring | exact IH].
Qed.

Lemma penalty_squares : forall nu mu g, length nu = length g -> length mu = length g -> Forall (fun m => 0 < m)%Q mu ->
    (penalty_value nu mu g == half_squares nu mu g + least_penalty nu mu)%Q.
Proof.
  intros nu mu g. unfold penalty_value. revert nu mu.
  induction g as [|x g IH]; intros [|n nu] [|m mu] Hn Hm Hp; cbn [length] in Hn, Hm; try discriminate; [cbn; ring|].
  inversion Hp as [|? ? Pm Hp']; subst. cbn [dot map half_squares least_penalty].
  specialize (IH nu mu ltac:(lia) ltac:(lia) Hp').
  setoid_replace (n * x + dot nu g + (1 # 2) * (m * (x * x) + dot mu (map (fun x0 => x0 * x0) g)))%Q
    with (n * x + (1 # 2) * (m * (x * x)) + (dot nu g + (1 # 2) * dot mu (map (fun x0 => x0 * x0) g)))%Q by ring.
  rewrite IH. field. lra.
Qed.

Lemma squares_positive : forall nu mu g, Forall (fun m => 0 < m)%Q mu -> (0 <= half_squares nu mu g)%Q.
Proof.
  intros nu mu g H. revert nu g. induction H as [|m mu Hm H IH]; intros [|n nu] [|x g]; cbn [half_squares]; try apply Qle_refl.
  specialize (IH nu g). set (w := (x + n / m)%Q). assert (0 <= w * w)%Q by nra. assert (0 <= (1 # 2) * m * (w * w))%Q by nra. lra.
Qed.

Lemma penalty_least : forall nu mu g, length nu = length g -> length mu = length g -> Forall (fun m => 0 < m)%Q mu ->
    (least_penalty nu mu <= penalty_value nu mu g)%Q.
Proof.
  intros nu mu g Hn Hm Hp. rewrite (penalty_squares nu mu g Hn Hm Hp).
  pose proof (squares_positive nu mu g Hp). lra.
Qed.

Lemma penalty_attained : forall nu mu, length nu = length mu -> Forall (fun m => 0 < m)%Q mu ->
    (penalty_value nu mu (map (fun nm => - (fst nm / snd nm)) (combine nu mu)) == least_penalty nu mu)%Q.
Proof.
  intros nu mu L Hp. rewrite penalty_squares; [|rewrite map_length, combine_length; lia..|exact Hp].
  assert (Z : (half_squares nu mu (map (fun nm => - (fst nm / snd nm)) (combine nu mu)) == 0)%Q).
  { clear -Hp. revert nu. induction Hp as [|m mu Hm H IH]; intros [|n nu]; cbn [combine map half_squares fst snd]; try reflexivity.
    rewrite IH. field. lra. }
  rewrite Z. ring.
Qed.

(** ** Bounds of states *)

Lemma open_at_nth : forall v idx l j, nth_error (open_at v idx l) j =
    if in_dec Nat.eq_dec j idx then match nth_error l j with Some _ => Some v | None => None end else nth_error l j.
Proof.
  intros v idx. unfold open_at. induction idx as [|i idx IH]; intros l j; cbn [fold_left].
  - destruct (in_dec Nat.eq_dec j []) as [[]|]. reflexivity.
  - rewrite IH. destruct (in_dec Nat.eq_dec j idx) as [Hj|Hj], (in_dec Nat.eq_dec j (i :: idx)) as [Hj'|Hj'].
    + destruct (Nat.eq_dec j i) as [->|N].
      * destruct (nth_error l i) as [e|] eqn:E.
        -- rewrite set_nth_same by (apply nth_error_Some; congruence). reflexivity.
        -- assert (E' : nth_error (set_nth l i v) i = None) by (apply nth_error_None; rewrite set_nth_length; apply nth_error_None, E).
           rewrite E'. reflexivity.
      * rewrite set_nth_other by exact N. reflexivity.
    + exfalso. apply Hj'. right. exact Hj.
    + destruct Hj' as [->|Hj']; [|contradiction]. destruct (nth_error l j) as [e|] eqn:E.
      * apply set_nth_same. apply nth_error_Some. congruence.
      * apply nth_error_None. rewrite set_nth_length. apply nth_error_None, E.
    + apply set_nth_other. intros ->. apply Hj'. left. reflexivity.
Qed.

Lemma nth_error_ext_local : forall (A : Type) (l l' : list A), (forall j, nth_error l j = nth_error l' j) -> l = l'.
Proof.
  intros A l. induction l as [|a l IH]; intros [|b l'] H; [reflexivity | discriminate (H 0) | discriminate (H 0)|].
  specialize (H 0) as H0. injection H0 as ->. f_equal. apply IH. intros j. exact (H (S j)).
Qed.
(** All bounds of the states are open afterwards. *)
Lemma states_open : forall opts s s' n,
    length (m_x (o_model (rx_problem s))) = n -> length (o_x_min (rx_problem s)) = n -> length (o_x_max (rx_problem s)) = n ->
    relax_states_constraints opts s = (s', Ok tt) ->
    o_x_min (rx_problem s') = repeat NInf n /\ o_x_max (rx_problem s') = repeat PInf n.
Proof.
  intros opts s s' n Hn Lmin Lmax H. unfold relax_states_constraints in H. rewrite Hn in H.
  apply (relax_states_ok (fun _ x => x)) in H; [|apply seq_NoDup]. cbv zeta in H.
  destruct H as [lo [hi [x [y [nu [mu [L' [_ [_ [_ [_ [_ [_ [_ [_ [_ [_ [_ [_ P]]]]]]]]]]]]]]]]]]].
  rewrite P. cbn [o_x_min o_x_max set_o_x_min set_o_x_max].
  assert (W : forall v (l : list ext), length l = n ->
    (forall j, j < n -> limited (rx_problem s) j = false -> nth_error l j = Some v) ->
    open_at v (filter (limited (rx_problem s)) (seq 0 n)) l = repeat v n).
  { intros v l Hl Hv. apply nth_error_ext_local. intros j. rewrite open_at_nth.
    destruct (Nat.lt_ge_cases j n) as [Hj|Hj].
    - rewrite nth_error_repeat by exact Hj.
      destruct (in_dec Nat.eq_dec j _) as [Hin|Hin].
      + destruct (nth_error l j) eqn:E; [reflexivity|]. apply nth_error_None in E. lia.
      + apply Hv; [exact Hj|]. destruct (limited (rx_problem s) j) eqn:El; [|reflexivity].
        exfalso. apply Hin. apply filter_In. split; [apply in_seq; lia | exact El].
    - rewrite (proj2 (nth_error_None (repeat v n) j)) by (rewrite repeat_length; exact Hj).
      rewrite (proj2 (nth_error_None l j)) by lia. destruct (in_dec _ _ _); reflexivity. }
  split; apply W; try assumption; intros j Hj Hl; unfold limited in Hl;
    destruct (nth_error (o_x_min (rx_problem s)) j) as [[| |]|]; try discriminate;
    destruct (nth_error (o_x_max (rx_problem s)) j) as [[| |]|]; try discriminate; reflexivity.
Qed.

(** ** Weights *)

Lemma set_mu_exact : forall v s, length v = length (st_mu s) -> set_mu v s = (set_st_mu v s, Ok tt).
Proof. intros v s H. unfold set_mu. rewrite H, Nat.eqb_refl. reflexivity. Qed.
Lemma set_mu_scalar : forall v s, exists w, set_mu [v] s = (set_st_mu w s, Ok tt) /\ length w = length (st_mu s) /\ Forall (fun m => m == v)%Q w.
Proof.
  intros v s. unfold set_mu. destruct (Nat.eqb_spec (length [v]) (length (st_mu s))) as [E|E].
  - exists [v]. split; [reflexivity|]. split; [exact E|]. repeat constructor.
  - exists (repeat (1 * v)%Q (length (st_mu s))). split; [reflexivity|]. split; [apply repeat_length|].
    apply Forall_forall. intros m Hm. apply repeat_spec in Hm. rewrite Hm. ring.
Qed.
Lemma set_mu_refused : forall v s, length v <> length (st_mu s) -> length v <> 1 -> set_mu v s = (s, Raise ValueError).
Proof.
  intros v s H H1. unfold set_mu. destruct (Nat.eqb_spec (length v) (length (st_mu s))) as [E|_]; [contradiction|].
  destruct v as [|a [|b v]]; try reflexivity. exfalso. apply H1. reflexivity.
Qed.

Lemma compute_skipping : forall F opts f K p th raw s,
    compute_new_nu_and_error F (skipping_weights opts) f K p th raw s = compute_new_nu_and_error F opts f K p th raw s.
Proof. reflexivity. Qed.
(** An unknown rule: everything is updated but the weights and the violations to compare with. *)
Lemma unknown_rule : forall F opts f K p th raw s s1 errors,
    al_skip_mu opts = false -> ~ In (al_rule opts) ["constant"; "primal"; "primal-dual"; "bounded-increase"]%string ->
    update_parameters F (skipping_weights opts) f K p th raw s = (s1, Ok errors) ->
    exists s2, update_parameters F opts f K p th raw s = (s2, Raise ValueError) /\
      st_mu s2 = st_mu s /\ st_nu s2 = st_nu s1 /\ st_nu_tilde s2 = st_nu_tilde s1.
Proof.
  intros F opts f K p th raw s s1 errors Hs Hr H.
  destruct (update_steps _ _ _ _ _ _ _ _ _ _ H) as [theta_k [sa [sb [J [Hc [Hm ->]]]]]].
  rewrite compute_skipping in Hc. unfold update_mu in Hm. cbn [skipping_weights al_skip_mu] in Hm. unfold cret in Hm. injection Hm as <-.
  exists sa. unfold update_parameters. rewrite (cbind_run _ _ _ (cres (join_thetas [th; Some (st_nu s)])) _ s s theta_k); [|unfold cres; rewrite J; reflexivity].
  rewrite (cbind_run _ _ _ _ _ _ _ _ Hc).
  assert (E : update_mu opts errors (st_last sa) sa = (sa, Raise ValueError)).
  { unfold update_mu. rewrite Hs.
    destruct (String.eqb_spec (al_rule opts) "constant"); [exfalso; apply Hr; left; auto|].
    destruct (String.eqb_spec (al_rule opts) "primal"); [exfalso; apply Hr; right; left; auto|].
    destruct (String.eqb_spec (al_rule opts) "primal-dual"); [exfalso; apply Hr; right; right; left; auto|].
    destruct (String.eqb_spec (al_rule opts) "bounded-increase"); [exfalso; apply Hr; right; right; right; left; auto | reflexivity]. }
  split; [|split; [apply (compute_mu _ _ _ _ _ _ _ _ _ _ Hc) | split; reflexivity]].
  apply cbind_stop. exact E.
Qed.

(** The rule "primal", component by component. *)
Lemma primal_rule : forall F opts f K p th raw s s' errors,
    update_parameters F opts f K p th raw s = (s', Ok errors) ->
    al_skip_mu opts = false -> al_rule opts = "primal"%string -> al_improve opts = false ->
    forall l, st_last s = Some l -> length l = length (st_mu s) -> length errors = length (st_mu s) ->
    length (st_mu s') = length (st_mu s) /\
    forall i m e before, nth_error (st_mu s) i = Some m -> nth_error errors i = Some e -> nth_error l i = Some before ->
      exists m', nth_error (st_mu s') i = Some m' /\
        (e <= al_decrease opts * before -> m' == m)%Q /\
        (al_decrease opts * before < e -> m' == Qmin (al_mu_max opts) (m * al_beta opts))%Q.
Proof.
  intros F opts f K p th raw s s' errors H Hs Hr Hi l El Ll Le.
  rewrite (primal_weights _ _ _ _ _ _ _ _ _ _ H Hs Hr (or_introl Hi)), El. split; [apply primal_length|].
  intros i m e b Hm He Hb. exists (primal_mu opts m e b). split; [rewrite (primal_nth opts _ errors l i m Hm), He, Hb; reflexivity|].
  unfold primal_mu. destruct (Qle_bool e (al_decrease opts * b)) eqn:E.
  - apply Qle_bool_iff in E. split; [reflexivity|]. intros Hlt. exfalso. apply (Qlt_not_le _ _ Hlt E).
  - split; [intros Hle; apply Qle_bool_iff in Hle; congruence|]. intros _. apply fmin_min.
Qed.
Lemma primal_first : forall F opts f K p th raw s s' errors,
    update_parameters F opts f K p th raw s = (s', Ok errors) ->
    al_skip_mu opts = false -> al_rule opts = "primal"%string -> st_last s = None -> st_mu s' = st_mu s.
Proof.
  intros F opts f K p th raw s s' errors H Hs Hr El.
  rewrite (primal_weights _ _ _ _ _ _ _ _ _ _ H Hs Hr (or_intror El)), El. reflexivity.
Qed.

(** ** Taking only improvements *)

Lemma improving_stuck : forall F points opts a own_p own_theta, respects F -> transcribable (ag_method a) ->
    let k := ag_method a in let pts := points (k_degree k) in
    collocation_points pts (k_degree k) -> carries F pts a own_p own_theta ->
    forall s p th raw, well_given a own_p own_theta p th -> well_sized a s -> length raw = collocation_size k ->
    al_skip_compute opts = false -> al_skip_nu opts = false -> al_improve opts = true -> st_last s <> None ->
    forall s' errors, update_parameters F opts (create_nu_update_func points a) (k_elements k) p th raw s = (s', Ok errors) ->
    Exists (fun e => 0 < e)%Q errors ->
    forall d d' el j i, st_nu_tilde s = Some d -> st_nu_tilde s' = Some d' -> 1 <= j ->
      multiplier d' (relaxed_count a) el j i = multiplier d (relaxed_count a) el j i.
Proof.
  intros F points opts a own_p own_theta HF T k pts Hpts C s p th raw G S Lr Hskip Hnu Himp Hlast s' errors Hup Hex d d' el j i Hd Hd' Hj.
  destruct (update_steps _ _ _ _ _ _ _ _ _ _ Hup) as [theta_k [s1 [s2 [J [Hc [Hm E]]]]]].
  assert (HK : k_elements k <> 0).
  { pose proof Hc as Hc0. unfold compute_new_nu_and_error in Hc0. apply cbind_back in Hc0. destruct Hc0 as [sa [fa [Ha _]]].
    unfold cres in Ha. injection Ha as _ Ef. unfold create_nu_update_func in Ef. fold k in Ef.
    destruct (collocation_unpack k (ag_variables a)); [|discriminate].
    destruct (delta_t k); [|discriminate]. destruct (breakpoints k) as [bps|] eqn:Eb; [|discriminate]. apply (breakpoints_ok _ _ Eb). }
  destruct (proj1 (collocation_unpack_spec _ k raw HK) Lr) as [r [_ [Sr Er]]]. rewrite <- Er in Hc.
  destruct (reads_exist k pts r (given_p p ++ st_mu s) (fun el => given_in th el ++ nu_in s el) Hpts Sr) as [q R].
  destruct (computed F points opts a own_p own_theta HF T Hpts C s p th r q (fitting_of _ _ _ _ _ _ G S) Sr R theta_k s1 errors J Hskip Hc)
    as [new [al [eq [M [[Le _] S1]]]]].
  rewrite Hnu in S1. destruct (st_last s) as [l|]; [|contradiction Hlast; reflexivity].
  assert (B : existsb (fun e => negb (Qle_bool e 0)) errors = true).
  { apply existsb_exists. apply Exists_exists in Hex. destruct Hex as [e [He Hp]]. exists e. split; [exact He|].
    destruct (Qle_bool e 0) eqn:Eq; [|reflexivity]. apply Qle_bool_iff in Eq. exfalso. apply (Qlt_not_le _ _ Hp Eq). }
  rewrite Himp, B in S1. cbn [andb] in S1.
  assert (Ht : st_nu_tilde s1 = Some d').
  { rewrite E, (update_mu_only _ _ _ _ _ _ Hm) in Hd'. exact Hd'. }
  assert (Hge : length errors <= j * relaxed_count a + i) by (rewrite Le; nia).
  pose proof (improvements_keep new errors (set_st_violations al eq s) s1 el (j * relaxed_count a + i) Hge S1) as K.
  rewrite Ht in K. change (st_nu_tilde (set_st_violations al eq s)) with (st_nu_tilde s) in K. rewrite Hd in K. exact K.
Qed.

(** ** Histories *)

Section History.
  Variables (F : nat -> Q -> Q) (points : nat -> list Q) (opts : al_options) (a : augmented) (own_p own_theta : list sym).
  Let k : method := ag_method a.
  Let pts : list Q := points (k_degree k).
  Hypothesis HF : respects F.
  Hypothesis T : transcribable k.
  Hypothesis Hpts : collocation_points pts (k_degree k).
  Hypothesis C : carries F pts a own_p own_theta.
  Variables (p : option (list Q)) (th : option (theta Q)).
  Hypothesis G : well_given a own_p own_theta p th.
  Variable ocp_solve : list sub_call -> res (list Q).
  Hypothesis Hskip : al_skip_compute opts = false.
  Hypothesis Hnu : al_skip_nu opts = false.
  Hypothesis Himp : al_improve opts = false.

  Lemma take_of : forall s d, st_nu_tilde s = Some d -> st_nu (take_nu_tilde s) = d.
  Proof. intros s d H. unfold take_nu_tilde. rewrite H. reflexivity. Qed.

  Lemma history : forall passes guess s calls, well_sized a s ->
      al_run F opts (create_nu_update_func points a) (k_elements k) ocp_solve p th guess s calls (map fst passes) ->
      Forall (fun zq => exists r, collocation_shape k r /\ as_raw (fst zq) = flatten r /\
                reads k pts r (sc_p (as_call (fst zq))) (theta_in (as_call (fst zq))) (snd zq)) passes ->
      forall el j tau i g old, el < k_elements k -> nth_error pts j = Some tau -> nth_error (relaxed_equations a) i = Some g ->
        multiplier (st_nu (take_nu_tilde s)) (relaxed_count a) el j i = Some old ->
        exists x, multiplier (st_nu (take_nu_tilde (last (map as_after (map fst passes)) s))) (relaxed_count a) el j i = Some x /\
          (x == old + accumulated F a el i tau g passes)%Q.
  Proof.
    intros passes. induction passes as [|[z q] rest IH]; intros guess s calls S Hrun Hq el j tau i g old Hel Hj Hi Hold.
    - exists old. split; [exact Hold|]. cbn. ring.
    - cbn [map fst al_run] in Hrun. destruct Hrun as [H1 [H2 [H3 [H4 [H5 [H6 [H7 H8]]]]]]].
      inversion Hq as [|? ? [r [Sr [Er R]]] Hq']; subst. cbn [fst snd] in Er, R.
      assert (Sb : well_sized a (as_before z)) by (rewrite H1; apply take_sized, S).
      assert (R' : reads k pts r (given_p p ++ st_mu (as_before z)) (fun el => given_in th el ++ nu_in (as_before z) el) q).
      { rewrite H3 in R. destruct R as [R1 R2 R3 R4 R5 R6 R7]. constructor; try assumption.
        intros e He. rewrite R5 by exact He. eapply theta_in_call; eassumption. }
      rewrite Er in H6.
      destruct (updated_multipliers F points opts a own_p own_theta HF T Hpts C (as_before z) p th r q
        (fitting_of _ _ _ _ _ _ G Sb) Sr R' Hskip (as_after z) (as_errors z) H6 Hnu (or_introl Himp)) as [d [Ed [[M1 [M2 M3]] En]]].
      assert (Hw : exists w, nth_error (st_mu (as_before z)) i = Some w).
      { destruct (nth_error (st_mu (as_before z)) i) as [w|] eqn:Ew; [exists w; reflexivity|].
        apply nth_error_None in Ew. rewrite (proj1 Sb) in Ew. assert (Hi' : i < length (relaxed_equations a)) by (apply nth_error_Some; rewrite Hi; discriminate). unfold relaxed_count in Ew. lia. }
      destruct Hw as [w Ew].
      rewrite <- H1 in Hold. destruct (M3 el j tau i g w old Hel Hj Hi Ew Hold) as [x [Ex Vx]].
      assert (Sa : well_sized a (as_after z)).
      { apply (update_sized F points opts a own_p own_theta HF T Hpts C p th G (flatten r) (as_before z) (as_after z) (as_errors z)); try assumption.
        apply w_C38_length, Sr. }
      rewrite <- (take_of _ _ Ed) in Ex.
      destruct (IH (Some (as_raw z)) (as_after z) (as_call z :: calls) Sa H8 Hq' el j tau i g x Hel Hj Hi Ex) as [y [Ey Vy]].
      exists y. split.
      + rewrite <- Ey. cbn [map fst]. destruct (map as_after (map fst rest)) as [|b l] eqn:El; [reflexivity|].
        f_equal. f_equal. f_equal. clear. revert b. induction l as [|c l IHl]; intros b; [reflexivity|]. exact (IHl c).
      + rewrite Vy, Vx. cbn [accumulated]. rewrite Ew. ring.
  Qed.
End History.

(** ** Relaxed problems that are prepared and discretised *)

Lemma relaxed_carries : forall F same points opts rq o c s d x_c x_c0 first o' k vars,
    (forall a b, same a b = true <-> a = b) -> NoDup (m_y (o_model o)) -> NoDup (m_alg (o_model o)) ->
    NoDup (rq_equalities rq) -> older o c -> o_p_opt o = [] -> o_theta_opt o = [] ->
    al_skip_initialize opts = false -> al_skip_parametrize opts = false ->
    0 < al_degree opts -> length (points (al_degree opts)) = al_degree opts -> distinct (points (al_degree opts)) ->
    rq_equalities rq = [] \/ rq_states rq = false ->
    relax same points opts rq (start_relaxing o c) = (s, Ok tt) ->
    direct_prepare points d x_c x_c0 first (rx_problem s) = (o', Ok tt) -> k_problem k = o' -> NoDup vars ->
    carries F (points (al_degree opts)) (mkAugmented k vars (rx_alg s) (rx_eq s) (rx_mu_sym s) (rx_nu_pol s))
            (m_p (o_model o)) (m_theta (o_model o)) /\
    rx_mu s = repeat (al_mu_0 opts) (length (rx_alg s ++ rx_eq s)) /\ rx_n s = length (rx_alg s ++ rx_eq s).
Proof.
  intros F same points opts rq o c s d x_c x_c0 first o' k vars Hs Dy Da De Old Hp Ht S1 S2 Hd Hl Hdist Hone H Hprep Hk Hv.
  destruct (relax_ok F same points opts rq o c s Hs Dy Da De Old S1 S2 Hd Hl Hdist H)
    as [ga [ge [x [y [_ [Pe [Px [Ly [_ [_ [R [Ea Ee]]]]]]]]]]]].
  assert (E : ga ++ ge ++ copies y x = rx_alg s ++ rx_eq s).
  { rewrite Ea, Ee. destruct Hone as [Hn|Hn].
    - rewrite Hn in Pe. unfold picks in Pe. cbn [map] in Pe. destruct ge; [|discriminate]. rewrite app_nil_r. reflexivity.
    - rewrite Hn in Px. unfold picks in Px. cbn [map] in Px. destruct x; [|discriminate]. destruct y; [|discriminate].
      cbn [copies combine map]. rewrite !app_nil_r. reflexivity. }
  rewrite E in R. destruct (prepare_keeps _ _ _ _ _ _ _ Hprep) as [K1 [K2 [K3 [K4 K5]]]].
  split; [|split; [apply (re_mu _ _ _ _ _ _ R) | apply (re_n _ _ _ _ _ _ R)]].
  apply (relaxes_carries F (points (al_degree opts)) (al_mu_0 opts) o s k vars R Hp Ht Hv); unfold k_model; rewrite Hk; assumption.
Qed.

(** The multipliers a method starts with have the right sizes. *)
Lemma start_sized : forall opts s a nu, rx_n s = relaxed_count a -> length (rx_mu s) = relaxed_count a ->
    k_elements (ag_method a) = al_elements opts -> k_degree (ag_method a) = al_degree opts -> (nu = None \/ nu = Some []) ->
    well_sized a (start_aug opts s nu).
Proof.
  intros opts s a nu Hn Hm He Hd Hnu. split; [exact Hm|]. split; [|intros d Hx; discriminate].
  intros el Hel.
  assert (E : dget Nat.eqb el (st_nu (start_aug opts s nu)) = dget Nat.eqb el (create_constant_theta 0%Q (rx_n s * al_degree opts) 1 (al_elements opts)))
    by (destruct Hnu as [->| ->]; reflexivity).
  rewrite E, Hn, Hd, <- He, constant_theta_lookup. destruct (Nat.ltb_spec el (k_elements (ag_method a))); [|lia].
  eexists. split; [reflexivity|]. rewrite repeat_length. lia.
Qed.

(** ** Requests that cannot succeed *)

Lemma filter_none_local : forall (A : Type) (f : A -> bool) l, (forall a, In a l -> f a = false) -> filter f l = [].
Proof.
  intros A f l. induction l as [|a l IH]; intros H; [reflexivity|]. cbn [filter]. rewrite (H a (or_introl eq_refl)).
  apply IH. intros b Hb. apply H. right. exact Hb.
Qed.
Lemma picks_all : forall (A : Type) (l v : list A), picks l (seq 0 (length l)) v -> v = l.
Proof.
  intros A l v H. unfold picks in H. apply nth_error_ext_local. intros j.
  pose proof (f_equal (fun x => nth_error x j) H) as Hj. cbn beta in Hj. rewrite !nth_error_map in Hj.
  destruct (Nat.lt_ge_cases j (length l)) as [L|L].
  - rewrite nth_seq in Hj by exact L. cbn [option_map] in Hj. destruct (nth_error v j); cbn in Hj; congruence.
  - rewrite (proj2 (nth_error_None l j) L). rewrite (proj2 (nth_error_None (seq 0 (length l)) j)) in Hj by (rewrite seq_length; exact L).
    destruct (nth_error v j); [discriminate | reflexivity].
Qed.
Lemma others_all : forall (A : Type) (l : list A), others (seq 0 (length l)) l = [].
Proof.
  intros A l. unfold others. assert (E : filter (fun iv : nat * A => negb (existsb (Nat.eqb (fst iv)) (seq 0 (length l)))) (combine (seq 0 (length l)) l) = []).
  { apply filter_none_local. intros [i v] Hin. apply in_combine_l in Hin. cbn [fst]. apply Bool.negb_false_iff, existsb_exists.
    exists i. split; [exact Hin | apply Nat.eqb_refl]. }
  rewrite E. reflexivity.
Qed.

Lemma all_and_equalities : forall same points opts rq o c,
    (forall a b, same a b = true <-> a = b) -> NoDup (m_y (o_model o)) -> NoDup (m_alg (o_model o)) ->
    length (m_alg (o_model o)) = length (m_y (o_model o)) ->
    rq_algebraic rq = None -> rq_algebraic_var rq = None -> rq_equalities rq <> [] ->
    exists s e, relax same points opts rq (start_relaxing o c) = (s, Raise e).
Proof.
  intros same points opts rq o c Hs Dy Da Sq Ha Hv He.
  destruct (relax same points opts rq (start_relaxing o c)) as [s [[]|e]] eqn:H; [|exists s, e; reflexivity].
  exfalso. unfold relax in H. cbv zeta in H. rewrite Ha, Hv in H. set (s0 := start_relaxing o c) in *.
  apply cbind_ok in H. destruct H as [s' [a [Hi H]]]. apply of_problem_ok in Hi. destruct Hi as [-> Hi].
  change (rx_problem s0) with o in Hi, H. apply index_vec_picks in Hi.
  apply cbind_ok in H. destruct H as [s1 [[] [H1 H]]].
  assert (N : m_alg (o_model (rx_problem s1)) = []).
  { rewrite <- Sq in Hi. pose proof (picks_all _ _ _ Hi) as Ea.
    destruct a as [|e a].
    - assert (s1 = s0) by (unfold cret in H1; congruence). subst s1. symmetry. exact Ea.
    - pose proof (relax_algebraic_ok (fun _ x => x) same opts _ _ s0 s1 Hs Dy Da H1) as R. cbv zeta in R.
      destruct R as [g [y [lo [hi [nu [mu [L' [gg [_ [_ [_ [_ [_ [_ [_ [_ P]]]]]]]]]]]]]]]].
      change (rx_problem s0) with o in P. rewrite P. cbn [without_algebraic o_model set_o_model set_alg m_alg set_y].
      rewrite <- Sq. change (m_alg (o_model (set_o_u_guess gg (with_controls y lo hi (set_o_L L' (with_parameters mu o)))))) with (m_alg (o_model o)).
      apply others_all. }
  apply cbind_ok in H. destruct H as [s2 [b [Hb _]]]. apply of_problem_ok in Hb. destruct Hb as [_ Hb].
  rewrite N in Hb. apply index_vec_picks in Hb. unfold picks in Hb. destruct (rq_equalities rq) as [|i idx]; [contradiction He; reflexivity|].
  destruct b; cbn [map] in Hb; [discriminate|]. destruct i; discriminate.
Qed.

(** Options given for the solver only are taken over after the multipliers are made. *)
Lemma solver_degree : forall same points solver opts rq d els s s' st k opts',
    new_augmented same points solver opts rq None (Some d) None els None s = (s', Ok (st, k, opts')) ->
    al_degree opts' = d /\
    forall el v, dget Nat.eqb el (st_nu st) = Some v -> length v = rx_n s' * al_degree opts.
Proof.
  intros same points solver opts rq d els s s' st k opts' H. unfold new_augmented in H.
  apply cbind_back in H. destruct H as [s1 [[] [_ H]]].
  apply cbind_back in H. destruct H as [s2 [st0 [H2 H]]]. unfold cret in H2. injection H2 as <- <-.
  apply cbind_back in H. destruct H as [s2 [d' [H2 H]]]. unfold cres in H2. cbn [agree] in H2. injection H2 as <- <-.
  apply cbind_back in H. destruct H as [s2 [e' [H2 H]]]. unfold cres in H2. injection H2 as <- _.
  apply cbind_back in H. destruct H as [s2 [k' [H2 H]]]. unfold cres in H2. injection H2 as <- _.
  unfold cret in H. injection H as <- <- _ <-. split; [reflexivity|]. intros el v Hv. cbn [start_aug st_nu] in Hv.
  rewrite constant_theta_lookup in Hv. destruct (el <? al_elements opts); [|discriminate]. injection Hv as <-. rewrite repeat_length. lia.
Qed.

Lemma conflicting_options : forall same points solver opts rq nu deg kdeg els kels s s1,
    relax same points opts rq s = (s1, Ok tt) ->
    (exists a b, a <> b /\ (deg = Some a /\ kdeg = Some b \/ els = Some a /\ kels = Some b)) ->
    new_augmented same points solver opts rq nu deg kdeg els kels s = (s1, Raise ValueError).
Proof.
  intros same points solver opts rq nu deg kdeg els kels s s1 H [a [b [N C]]]. unfold new_augmented, cbind at 1. rewrite H.
  unfold cbind at 1, cret at 1.
  assert (A : forall d x own, (exists e, agree d x own = Ok e) \/ agree d x own = Raise ValueError).
  { intros [d|] [x|] own; cbn [agree]; try (left; eexists; reflexivity).
    destruct (d =? x)%nat; [left; eexists; reflexivity|right; reflexivity]. }
  assert (B : forall own, agree (Some a) (Some b) own = Raise ValueError).
  { intros own. cbn [agree]. destruct (a =? b)%nat eqn:E; [apply Nat.eqb_eq in E; contradiction|reflexivity]. }
  destruct C as [[-> ->] | [-> ->]].
  - unfold cbind at 1, cres at 1. rewrite B. reflexivity.
  - destruct (A deg kdeg (al_degree opts)) as [[e E] | E]; unfold cbind at 1, cres at 1; rewrite E; [|reflexivity].
    unfold cbind at 1, cres at 1. rewrite B. reflexivity.
Qed.
Lemma solver_options : forall same points solver opts rq nu deg kdeg els kels s s' st k opts',
    new_augmented same points solver opts rq nu deg kdeg els kels s = (s', Ok (st, k, opts')) ->
    al_degree opts' = match deg with Some d => d | None => al_degree opts end /\
    al_elements opts' = match els with Some e => e | None => al_elements opts end /\
    solver (rx_problem s') (al_degree opts') (al_elements opts') = Ok k.
Proof.
  intros same points solver opts rq nu deg kdeg els kels s s' st k opts' H. unfold new_augmented in H.
  apply cbind_back in H. destruct H as [s1 [[] [_ H]]].
  apply cbind_back in H. destruct H as [s2 [st0 [H2 H]]]. unfold cret in H2. injection H2 as <- <-.
  apply cbind_back in H. destruct H as [s2 [d' [H2 H]]]. unfold cres in H2. injection H2 as <- Hd.
  apply cbind_back in H. destruct H as [s2 [e' [H2 H]]]. unfold cres in H2. injection H2 as <- He.
  apply cbind_back in H. destruct H as [s2 [k' [H2 H]]]. unfold cres in H2. injection H2 as <- Hk.
  unfold cret in H. injection H as <- <- <- <-. cbn [al_degree al_elements].
  assert (A : forall d x own r, agree d x own = Ok r -> r = match d with Some v => v | None => own end).
  { intros [d|] [x|] own r; cbn [agree]; try destruct (d =? x)%nat; congruence. }
  split; [exact (A _ _ _ _ Hd)|]. split; [exact (A _ _ _ _ He)|]. exact Hk.
Qed.
Lemma keyword_ignored : forall same points solver opts rq nu kdeg kels s,
    new_augmented same points solver opts rq nu None kdeg None kels s =
    new_augmented same points solver opts rq nu None None None None s.
Proof. reflexivity. Qed.

(** ** Corollaries *)

Lemma lowered : forall F opts f K p th raw s s' errors,
    update_parameters F opts f K p th raw s = (s', Ok errors) ->
    al_skip_mu opts = false -> al_rule opts = "bounded-increase"%string -> (1 <= al_beta opts)%Q -> (0 <= al_mu_max opts)%Q ->
    forall i m, nth_error (st_mu s) i = Some m -> (al_mu_max opts < m)%Q ->
    exists m', nth_error (st_mu s') i = Some m' /\ (m' == al_mu_max opts)%Q /\ (m' < m)%Q.
Proof.
  intros F opts f K p th raw s s' errors H Hs Hr Hb H0 i m Hm Hlt. rewrite (increased_weights _ _ _ _ _ _ _ _ _ _ H Hs Hr).
  rewrite nth_error_map, Hm. cbn [option_map]. eexists. split; [reflexivity|].
  assert (E : (fmin (al_mu_max opts) (m * al_beta opts) == al_mu_max opts)%Q) by (rewrite fmin_min; apply Q.min_l; nra).
  split; [exact E|]. rewrite E. exact Hlt.
Qed.

Lemma unchanged_multipliers : forall F pts a q s new, moved F pts a q s new ->
    forall el j tau i g w old, el < k_elements (ag_method a) -> nth_error pts j = Some tau ->
      nth_error (relaxed_equations a) i = Some g -> nth_error (st_mu s) i = Some w ->
      multiplier (st_nu s) (relaxed_count a) el j i = Some old -> (value_on F (ag_method a) q el tau g == 0)%Q ->
      exists x, multiplier new (relaxed_count a) el j i = Some x /\ (x == old)%Q.
Proof.
  intros F pts a q s new [_ [_ M]] el j tau i g w old Hel Hj Hi Hw Ho Hv.
  destruct (M el j tau i g w old Hel Hj Hi Hw Ho) as [x [Ex Vx]]. exists x. split; [exact Ex|]. rewrite Vx, Hv. ring.
Qed.

Lemma run_passes : forall F opts f K ocp_solve p th guess s st v,
    call_solver F opts f K false ocp_solve p th guess (s, []) = (st, Ok v) ->
    exists steps z, al_run F opts f K ocp_solve p th guess s [] (steps ++ [z]) /\
      snd st = rev (map as_call (steps ++ [z])) /\ fst st = as_after z /\ fst (fst v) = as_raw z /\
      1 <= length (snd st) <= al_max_iter opts /\
      (length (snd st) < al_max_iter opts -> below (al_tol opts) (as_errors z)).
Proof.
  intros F opts f K ocp_solve p th guess s [s' calls] v H. unfold call_solver in H. apply run_refined in H.
  destruct H as [steps [Hrun [Ec [Hn Hlast]]]]. rewrite app_nil_r in Ec. cbn [fst snd].
  destruct (rev steps) as [|z l] eqn:Er; [destruct Hlast as [_ [H _]]; discriminate|].
  destruct Hlast as [Es [Ev Hb]]. assert (E : steps = rev l ++ [z]) by (rewrite <- (rev_involutive steps), Er; reflexivity).
  assert (Lc : length calls = length steps) by (rewrite Ec, rev_length, map_length; reflexivity).
  exists (rev l), z. rewrite <- E. split; [exact Hrun|]. split; [exact Ec|]. split; [exact Es|]. split; [rewrite Ev; reflexivity|].
  split; [rewrite Lc; split; [rewrite E, app_length; cbn; lia | exact Hn]|].
  rewrite Lc. intros Hlt. destruct Hb as [Hb|Hb]; [lia | exact Hb].
Qed.
Lemma run_calls : forall F opts f K ocp_solve p th no_update guess s st r,
    call_solver F opts f K no_update ocp_solve p th guess (s, []) = (st, r) -> length (snd st) <= al_max_iter opts.
Proof.
  intros F opts f K ocp_solve p th no_update guess s st r. unfold call_solver.
  assert (G : forall n guess lst z st r, iterations F opts f K no_update ocp_solve p th n guess lst z = (st, r) ->
    length (snd st) <= length (snd z) + n).
  { intros n. induction n as [|n IH]; intros g0 lst z st0 r0 H; cbn [iterations] in H.
    - destruct lst; injection H as <- _; lia.
    - unfold cbind in H. destruct (iteration _ _ _ _ _ _ _ _ _ _) as [s1 out] eqn:Ei.
      assert (L1 : length (snd s1) <= length (snd z) + 1).
      { unfold iteration in Ei. destruct (join_nu_to_theta _ _); [|injection Ei as <- _; cbn; lia].
        destruct (ocp_solve _); [|injection Ei as <- _; cbn; lia]. destruct no_update; [injection Ei as <- _; cbn; lia|].
        destruct (update_parameters _ _ _ _ _ _ _ _) as [s2 [er|e]]; injection Ei as <- _; cbn; lia. }
      destruct out as [[b v]|e]; [|injection H as <- _; lia]. cbn [fst snd] in H.
      destruct b; [injection H as <- _; lia|]. apply IH in H. lia. }
  intros H. apply G in H. cbn [snd length] in H. exact H.
Qed.
Lemma run_never : forall F opts f K ocp_solve p th no_update guess s calls, al_max_iter opts = 0 ->
    call_solver F opts f K no_update ocp_solve p th guess (s, calls) = ((s, calls), Raise UnboundLocalError).
Proof. intros F opts f K ocp_solve p th no_update guess s calls H. unfold call_solver. rewrite H. reflexivity. Qed.

(** The parameters returned are those of the last call when the caller gives his own. *)
Lemma run_returned : forall F opts f K ocp_solve p th guess s st v,
    call_solver F opts f K false ocp_solve (Some p) (Some th) guess (s, []) = (st, Ok v) ->
    exists c, hd_error (snd st) = Some c /\ snd (fst v) = sc_p c /\ snd v = sc_theta c.
Proof.
  intros F opts f K ocp_solve p th guess s [s' calls] v H. unfold call_solver in H. apply run_refined in H.
  destruct H as [steps [Hrun [Ec [Hn Hlast]]]]. rewrite app_nil_r in Ec. cbn [fst snd].
  destruct (rev steps) as [|z l] eqn:Er; [destruct Hlast as [_ [H _]]; discriminate|].
  destruct Hlast as [Es [Ev Hb]]. exists (as_call z). rewrite Ec, <- map_rev, Er. split; [reflexivity|]. rewrite Ev. split; reflexivity.
Qed.

Lemma states_guess : forall opts s s', relax_states_constraints opts s = (s', Ok tt) ->
    (exists i, i < length (m_x (o_model (rx_problem s))) /\ limited (rx_problem s) i = true) -> o_u_guess (rx_problem s) = None.
Proof.
  intros opts s s' H [i [Hi Hl]]. unfold relax_states_constraints in H.
  apply (relax_states_ok (fun _ x => x)) in H; [|apply seq_NoDup]. cbv zeta in H.
  destruct H as [lo [hi [x [y [nu [mu [L' [_ [_ [_ [_ [_ [_ [_ [G _]]]]]]]]]]]]]]]. apply G.
  intros E. assert (In i []) by (rewrite <- E; apply filter_In; split; [apply in_seq; lia | exact Hl]). contradiction.
Qed.

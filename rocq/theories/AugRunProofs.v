(** Proofs about the runs of the augmented Lagrangian method. *)
From Coq Require Import String Sorted SetoidList Lqa Qabs Qminmax Qpower.
From Verif Require Import Base BaseProofs UtilModel UtilProofs ExprModel ExprProofs NlpModel SysModel
  SysSpec SysProofs OcpModel LagModel LagSpec LagProofs DiscModel DiscSpec DiscProofs
  ColSpec ColPolyProofs ColEvalProofs ColProofs ColTopProofs PlantProofs AugModel AugSpec AugUpdateProofs AugProofs AugLoopProofs.
Local Open Scope list_scope.
Local Open Scope nat_scope.

Lemma below_tol : forall tol errors, forallb (fun e => negb (Qle_bool tol e)) errors = true <-> below tol errors.
Proof.
  intros tol errors. unfold below. rewrite forallb_forall, Forall_forall. split; intros H e He; specialize (H e He).
  - apply Qnot_le_lt. intros Hle. apply Qle_bool_iff in Hle. rewrite Hle in H. discriminate.
  - destruct (Qle_bool tol e) eqn:E; [|reflexivity]. apply Qle_bool_iff in E. exfalso. apply (Qlt_not_le _ _ H E).
Qed.

Lemma with_mu_is : forall p mu, with_mu p mu = given_p p ++ mu.
Proof. intros p mu. destruct p; reflexivity. Qed.

Section Run.
  Variables (F : nat -> Q -> Q) (opts : al_options) (f : res update_function) (K : nat).
  Variable ocp_solve : list sub_call -> res (list Q).
  Variables (p : option (list Q)) (th : option (theta Q)).
  Let iter := iterations F opts f K false ocp_solve p th.
  Let run := al_run F opts f K ocp_solve p th.
  Let ret := returned opts p th.

  Lemma run_refined : forall n guess lst s calls s' calls' v,
      iter n guess lst (s, calls) = ((s', calls'), Ok v) ->
      exists steps, run guess s calls steps /\ calls' = rev (map as_call steps) ++ calls /\ length steps <= n /\
        match rev steps with
        | [] => n = 0 /\ lst = Some v /\ s' = s
        | z :: _ => s' = as_after z /\ v = ret (as_after z) (as_call z) (as_raw z) /\
                    (length steps = n \/ below (al_tol opts) (as_errors z))
        end.
  Proof.
    intros n. induction n as [|n IH]; intros guess lst s calls s' calls' v H; unfold iter in H; cbn [iterations] in H.
    - exists []. destruct lst as [w|]; [|discriminate]. unfold cret in H. injection H as <- <- <-.
      split; [exact I|]. repeat split; auto.
    - unfold cbind in H. destruct (iteration _ _ _ _ _ _ _ _ _ _) as [st [out|e]] eqn:Ei; [|discriminate].
      unfold iteration in Ei. cbn [fst snd] in Ei.
      destruct (join_nu_to_theta th (st_nu (take_nu_tilde s))) as [theta_k|] eqn:Ej; [|discriminate].
      set (c := mkSub guess (with_mu p (st_mu (take_nu_tilde s))) theta_k) in Ei.
      destruct (ocp_solve (c :: calls)) as [raw|] eqn:Es; [|discriminate].
      destruct (update_parameters F opts f K p th raw (take_nu_tilde s)) as [s1 [errors|e]] eqn:Eu; [|discriminate].
      injection Ei as <- <-. cbn [fst snd] in H.
      set (z := mkStep (take_nu_tilde s) c raw errors s1).
      assert (Ez : forall rest, (rest <> [] -> ~ below (al_tol opts) errors) -> run (Some raw) s1 (c :: calls) rest -> run guess s calls (z :: rest)).
      { intros rest Hb Hr. unfold run. cbn [al_run]. cbn [as_before as_call as_raw as_errors as_after z c sc_guess sc_p sc_theta].
        split; [reflexivity|]. split; [reflexivity|]. split; [apply with_mu_is|]. split; [exact Ej|]. split; [exact Es|]. split; [exact Eu|]. split; [exact Hb | exact Hr]. }
      destruct (forallb _ errors) eqn:Eb.
      + unfold cret in H. injection H as <- <- <-. exists [z].
        split; [apply Ez; [intros E; contradiction | exact I]|]. cbn [map rev app length]. split; [reflexivity|]. split; [lia|].
        cbn [as_after as_call as_raw as_errors z]. split; [reflexivity|]. split; [reflexivity|]. right. apply below_tol, Eb.
      + apply IH in H. destruct H as [rest [Hr [Ec [Hl Hlast]]]]. cbn [fst returned] in Hr.
        assert (Hb : ~ below (al_tol opts) errors) by (intros Hb; apply below_tol in Hb; congruence).
        exists (z :: rest). split; [apply Ez; [intros _; exact Hb | exact Hr]|].
        cbn [map rev length]. split; [rewrite Ec, <- app_assoc; reflexivity|]. split; [lia|].
        destruct (rev rest) as [|y l] eqn:Er.
        * destruct Hlast as [H1 [H2 H3]]. assert (rest = []) by (apply (f_equal (@rev _)) in Er; rewrite rev_involutive in Er; exact Er).
          subst rest n s'. cbn [app]. injection H2 as <-. cbn [as_after as_call as_raw as_errors z length]. auto.
        * cbn [app]. destruct Hlast as [H1 [H2 H3]]. split; [exact H1|]. split; [exact H2|]. destruct H3 as [H3|H3]; [left; lia | right; exact H3].
  Qed.

  (** Weights of the calls, whatever the outcome. *)
  Lemma calls_weights : forall (W : nat -> list Q -> Prop) n i guess lst s calls st x,
      W i (st_mu s) ->
      (forall i raw z z' e, W i (st_mu z) -> update_parameters F opts f K p th raw z = (z', Ok e) -> W (S i) (st_mu z')) ->
      iter n guess lst (s, calls) = (st, x) ->
      exists new, snd st = rev new ++ calls /\ length new <= n /\
        forall j c, nth_error new j = Some c -> exists m, sc_p c = given_p p ++ m /\ W (i + j) m.
  Proof.
    intros W n. induction n as [|n IH]; intros i guess lst s calls st x H0 Hstep H; unfold iter in H; cbn [iterations] in H.
    - exists []. destruct lst; injection H as <- _; cbn [snd rev app length]; (split; [reflexivity|]; split; [lia|]; intros [|j] c Hc; discriminate).
    - unfold cbind in H. destruct (iteration _ _ _ _ _ _ _ _ _ _) as [st' out] eqn:Ei.
      unfold iteration in Ei. cbn [fst snd] in Ei.
      assert (Hmu : st_mu (take_nu_tilde s) = st_mu s) by (unfold take_nu_tilde; destruct (st_nu_tilde s); reflexivity).
      destruct (join_nu_to_theta th (st_nu (take_nu_tilde s))) as [theta_k|] eqn:Ej.
      2: { injection Ei as <- <-. injection H as <- _. exists []. cbn [snd rev app length]. split; [reflexivity|]. split; [lia|].
           intros [|j] c Hc; discriminate. }
      set (c := mkSub guess (with_mu p (st_mu (take_nu_tilde s))) theta_k) in Ei.
      assert (One : forall j c', nth_error [c] j = Some c' -> exists m, sc_p c' = given_p p ++ m /\ W (i + j) m).
      { intros [|[|j]] c' Hc'; try discriminate. injection Hc' as <-. exists (st_mu (take_nu_tilde s)). cbn [c sc_p].
        split; [apply with_mu_is|]. rewrite Nat.add_0_r, Hmu. exact H0. }
      destruct (ocp_solve (c :: calls)) as [raw|] eqn:Es.
      2: { injection Ei as <- <-. injection H as <- _. exists [c]. cbn [snd rev app length]. split; [reflexivity|]. split; [lia | exact One]. }
      destruct (update_parameters F opts f K p th raw (take_nu_tilde s)) as [s1 [errors|e]] eqn:Eu.
      2: { injection Ei as <- <-. injection H as <- _. exists [c]. cbn [snd rev app length]. split; [reflexivity|]. split; [lia | exact One]. }
      injection Ei as <- <-. cbn [fst snd] in H.
      destruct (forallb _ errors).
      { injection H as <- _. exists [c]. cbn [snd rev app length]. split; [reflexivity|]. split; [lia | exact One]. }
      apply (IH (S i)) in H.
      + destruct H as [new [Hn [Hl Hw]]]. exists (c :: new). cbn [rev length]. split; [rewrite Hn, <- app_assoc; reflexivity|].
        split; [lia|]. intros [|j] c' Hc'; [apply (One 0), Hc'|]. destruct (Hw j c' Hc') as [m [E1 E2]]. exists m. split; [exact E1|].
        rewrite Nat.add_succ_r. exact E2.
      + apply (Hstep i raw _ _ _ ltac:(rewrite Hmu; exact H0) Eu).
      + exact Hstep.
  Qed.
End Run.

(** ** Weights of the calls *)

Section CallWeights.
  Variables (F : nat -> Q -> Q) (opts : al_options) (f : res update_function) (K : nat).
  Variable ocp_solve : list sub_call -> res (list Q).
  Variables (p : option (list Q)) (th : option (theta Q)) (guess : option (list Q)) (s : aug_state).
  Variables (st : aug_state * list sub_call) (x : res (list Q * list Q * theta Q)).
  Hypothesis H : call_solver F opts f K false ocp_solve p th guess (s, []) = (st, x).

  Lemma rev_calls : forall new : list sub_call, snd st = rev new ++ [] -> rev (snd st) = new.
  Proof. intros new E. rewrite E, app_nil_r, rev_involutive. reflexivity. Qed.

  Lemma constant_calls : al_skip_mu opts = true \/ al_rule opts = "constant"%string \/ al_rule opts = "primal-dual"%string ->
      forall c, In c (snd st) -> sc_p c = given_p p ++ st_mu s.
  Proof.
    intros Hr c Hc.
    destruct (calls_weights F opts f K ocp_solve p th (fun _ m => m = st_mu s) (al_max_iter opts) 0 guess None s [] st x) with (3 := H) as [new [E [_ Hw]]].
    - reflexivity.
    - intros i raw z z' e Hz Hu. rewrite (kept_weights _ _ _ _ _ _ _ _ _ _ Hu Hr). exact Hz.
    - rewrite E, app_nil_r in Hc. apply in_rev in Hc. apply In_nth_error in Hc. destruct Hc as [j Hj].
      destruct (Hw j c Hj) as [m [E1 ->]]. exact E1.
  Qed.

  Lemma power_S : forall b i, (b ^ Z.of_nat (S i) == b ^ Z.of_nat i * b)%Q.
  Proof.
    intros b i. destruct (Qeq_dec b 0) as [E|E].
    - rewrite Nat2Z.inj_succ. rewrite E. rewrite Qpower_0 by lia. ring.
    - rewrite Nat2Z.inj_succ, <- Z.add_1_r, Qpower_plus by exact E. reflexivity.
  Qed.
  Lemma power_ge_1 : forall b i, (1 <= b)%Q -> (1 <= b ^ Z.of_nat i)%Q.
  Proof.
    intros b i Hb. induction i as [|i IH]; [apply Qle_refl|]. rewrite power_S. nra.
  Qed.

  Lemma increased_calls : al_skip_mu opts = false -> al_rule opts = "bounded-increase"%string ->
      (1 <= al_beta opts)%Q -> Forall (fun m => 0 <= m /\ m <= al_mu_max opts)%Q (st_mu s) ->
      forall i c, nth_error (rev (snd st)) i = Some c -> exists m, sc_p c = given_p p ++ m /\
        Forall2 (fun m0 mi => mi == Qmin (al_mu_max opts) (m0 * al_beta opts ^ Z.of_nat i))%Q (st_mu s) m.
  Proof.
    intros Hs Hr Hb Hm i c Hc.
    destruct (calls_weights F opts f K ocp_solve p th
      (fun i m => Forall2 (fun m0 mi => mi == Qmin (al_mu_max opts) (m0 * al_beta opts ^ Z.of_nat i))%Q (st_mu s) m)
      (al_max_iter opts) 0 guess None s [] st x) with (3 := H) as [new [E [_ Hw]]].
    - clear -Hm. induction Hm as [|m l [H0 H1] Hm IH]; constructor; [|exact IH]. cbn. rewrite Qmult_1_r, Q.min_r by exact H1. reflexivity.
    - intros j raw z z' e Hz Hu. rewrite (increased_weights _ _ _ _ _ _ _ _ _ _ Hu Hs Hr). clear -Hz Hm Hb.
      induction Hz as [|m0 mj l l' Hz0 Hz IH]; [constructor|]. inversion Hm as [|? ? [M0 M1] Hm']; subst. constructor; [|apply IH; exact Hm'].
      rewrite fmin_min, power_S. set (w := (al_beta opts ^ Z.of_nat j)%Q) in *. set (hi := al_mu_max opts) in *. set (b := al_beta opts) in *.
      assert (W1 : (1 <= w)%Q) by (apply power_ge_1; exact Hb).
      destruct (Qlt_le_dec (m0 * w) hi) as [L|L].
      + assert (Ej : (mj == m0 * w)%Q) by (rewrite Hz0; apply Q.min_r, Qlt_le_weak, L). rewrite Ej, Qmult_assoc. reflexivity.
      + assert (Ej : (mj == hi)%Q) by (rewrite Hz0; apply Q.min_l, L). rewrite Ej.
        assert (P : (0 <= m0 * w)%Q) by (apply Qmult_le_0_compat; [exact M0 | lra]).
        rewrite (Q.min_l hi (hi * b)) by nra. rewrite Q.min_l; [reflexivity|]. rewrite Qmult_assoc. nra.
    - rewrite (rev_calls _ E) in Hc. apply (Hw i c Hc).
  Qed.

  Lemma growing_calls : (1 <= al_beta opts)%Q -> Forall (fun m => 0 <= m /\ m <= al_mu_max opts)%Q (st_mu s) ->
      forall c, In c (snd st) -> exists m, sc_p c = given_p p ++ m /\ Forall2 (grows (al_mu_max opts)) (st_mu s) m.
  Proof.
    intros Hb Hm c Hc.
    destruct (calls_weights F opts f K ocp_solve p th (fun _ m => Forall2 (grows (al_mu_max opts)) (st_mu s) m)
      (al_max_iter opts) 0 guess None s [] st x) with (3 := H) as [new [E [_ Hw]]].
    - clear -Hm. induction Hm as [|m l [H0 H1] Hm IH]; constructor; [split; [apply Qle_refl | exact H1] | exact IH].
    - intros i raw z z' e Hz Hu.
      assert (Hz' : Forall (fun m => 0 <= m /\ m <= al_mu_max opts)%Q (st_mu z)).
      { clear -Hz Hm. induction Hz as [|m m' l l' [G1 G2] Hz IH]; [constructor|]. inversion Hm as [|? ? [M0 M1] Hm']; subst.
        constructor; [split; [lra | exact G2] | apply IH, Hm']. }
      pose proof (update_growth _ _ _ _ _ _ _ _ _ _ Hu Hb Hz') as G.
      refine (Forall2_trans_l _ _ _ _ _ _ _ _ _ _ Hz G). intros a b c0 [A1 A2] [B1 B2]. split; [lra | exact B2].
    - rewrite E, app_nil_r in Hc. apply in_rev in Hc. apply In_nth_error in Hc. destruct Hc as [j Hj].
      destruct (Hw j c Hj) as [m [E1 E2]]. exists m. split; assumption.
  Qed.
End CallWeights.

(** ** Readings exist *)

Lemma reads_exist : forall k pts (r : traj Q) p th, collocation_points pts (k_degree k) -> collocation_shape k r ->
    exists q, reads k pts r p th q.
Proof.
  intros k pts r p th Hpts [Gx [Gy _]].
  assert (Hs : distinct (0%Q :: pts)) by (apply sorted_distinct, Hpts).
  assert (Lp : length pts = k_degree k) by apply Hpts.
  destruct (interpolate_grid (fun x : Q => x) _ _ _ _ _ Hs (eq_refl _ : length (0%Q :: pts) = _) (eq_ind _ (fun d => grid _ d _ _) Gx _ (eq_trans (Nat.add_1_r _) (f_equal S (eq_sym Lp))))) as [fx Hfx].
  destruct (interpolate_grid (fun x : Q => x) _ _ _ _ _ (distinct_tail _ _ Hs) Lp Gy) as [fy Hfy].
  exists (mkTrajectory fx fy (fun el => match nth_error (r_u r) el with Some l => concat l | None => [] end) p th (r_eta r)
            (repeat 0%Q (length (m_x_0 (k_model k)))) []).
  constructor; cbn [q_x q_y q_u q_p q_theta q_eta q_x0]; try reflexivity.
  - intros el i Hel Hi. destruct (Hfx el i Hel Hi) as [A B]. split; [exact A | exact B].
  - intros el i Hel Hi. destruct (Hfy el i Hel Hi) as [A B]. rewrite Lp. split; [exact A | exact B].
  - intros el l E. rewrite E. reflexivity.
  - apply repeat_length.
Qed.

(** ** Sizes *)

Lemma fitting_of : forall a own_p own_theta s p th, well_given a own_p own_theta p th -> well_sized a s ->
    fitting a own_p own_theta s p th.
Proof. intros a own_p own_theta s p th [G1 G2] [S1 [S2 S3]]. constructor; assumption. Qed.
Lemma take_sized : forall a s, well_sized a s -> well_sized a (take_nu_tilde s).
Proof.
  intros a s [S1 [S2 S3]]. unfold take_nu_tilde. destruct (st_nu_tilde s) as [d|] eqn:E.
  - split; [exact S1|]. cbn [st_nu st_nu_tilde]. split; [apply S3; reflexivity|]. intros d' Ed. injection Ed as <-. apply S3. reflexivity.
  - split; [exact S1|]. split; [exact S2|]. rewrite E. intros d Hd. discriminate.
Qed.
Lemma improvement_sized : forall a new i err last s s', well_sized a s ->
    take_improvement new i err last s = (s', Ok tt) -> well_sized a s'.
Proof.
  intros a new i err last s s' [S1 [S2 S3]] H. pose proof (improvement_mu _ _ _ _ _ _ _ H) as [Em _].
  apply improvement_is in H. destruct H as [[_ ->]|[_ [d [E1 [E2 [E3 [E4 E5]]]]]]]; [split; [exact S1 | split; assumption]|].
  assert (P : forall el, (el < k_elements (ag_method a)) -> exists v, dget Nat.eqb el (put_at d new i) = Some v /\
      length v = relaxed_count a * k_degree (ag_method a)).
  { intros el Hel. destruct (S3 d E1 el Hel) as [v [Ev Lv]]. rewrite put_at_get, Ev. eexists. split; [reflexivity|].
    destruct (dget Nat.eqb el new); [rewrite set_nth_length|]; exact Lv. }
  split; [rewrite Em; exact S1|]. split.
  - rewrite E3. destruct (st_shared s); assumption.
  - rewrite E2. intros d' Hd. injection Hd as <-. exact P.
Qed.
Lemma mu_step_length : forall opts errors last s s' x, update_mu opts errors last s = (s', x) -> length (st_mu s') = length (st_mu s).
Proof.
  intros opts errors last s s' x H. unfold update_mu in H.
  destruct (al_skip_mu opts); [injection H as <- _; reflexivity|].
  destruct (String.eqb _ "constant"); [injection H as <- _; reflexivity|].
  destruct (String.eqb _ "primal"); [destruct last; [unfold cmodify in H; injection H as <- _; apply primal_length | injection H as <- _; reflexivity]|].
  destruct (String.eqb _ "primal-dual"); [injection H as <- _; reflexivity|].
  destruct (String.eqb _ "bounded-increase"); [unfold cmodify in H; injection H as <- _; apply map_length | injection H as <- _; reflexivity].
Qed.

Section Sizes.
  Variables (F : nat -> Q -> Q) (points : nat -> list Q) (opts : al_options) (a : augmented) (own_p own_theta : list sym).
  Let k : method := ag_method a.
  Let pts : list Q := points (k_degree k).
  Hypothesis HF : respects F.
  Hypothesis T : transcribable k.
  Hypothesis Hpts : collocation_points pts (k_degree k).
  Hypothesis C : carries F pts a own_p own_theta.
  Variables (p : option (list Q)) (th : option (theta Q)).
  Hypothesis G : well_given a own_p own_theta p th.
  Let f := create_nu_update_func points a.

  Lemma function_elements : forall u, f = Ok u -> k_elements k <> 0.
  Proof.
    intros u H. unfold f, create_nu_update_func in H. fold k in H.
    destruct (collocation_unpack k (ag_variables a)); [|discriminate].
    destruct (delta_t k); [|discriminate]. destruct (breakpoints k) as [bps|] eqn:Eb; [|discriminate]. apply (breakpoints_ok _ _ Eb).
  Qed.

  Lemma update_sized : forall raw s s' errors, length raw = collocation_size k -> well_sized a s ->
      update_parameters F opts f (k_elements k) p th raw s = (s', Ok errors) -> well_sized a s'.
  Proof.
    intros raw s s' errors Lr S H.
    destruct (update_steps _ _ _ _ _ _ _ _ _ _ H) as [theta_k [s1 [s2 [J [Hc [Hm ->]]]]]].
    assert (Es1 : well_sized a s1 -> well_sized a (set_st_last (Some errors) s2)).
    { intros [S1 [S2 S3]]. pose proof (mu_step_length _ _ _ _ _ _ Hm) as Lm. rewrite (update_mu_only _ _ _ _ _ _ Hm).
      split; [cbn [set_st_last set_st_mu st_mu]; rewrite Lm; exact S1|]. split; assumption. }
    apply Es1. clear Es1 Hm H.
    destruct (al_skip_compute opts) eqn:Hskip.
    { unfold compute_new_nu_and_error in Hc. apply cbind_back in Hc. destruct Hc as [sa [fa [Ha Hc]]]. unfold cres in Ha. injection Ha as <- _.
      rewrite Hskip in Hc. unfold cret in Hc. injection Hc as <- _. exact S. }
    assert (HK : k_elements k <> 0).
    { unfold compute_new_nu_and_error in Hc. apply cbind_back in Hc. destruct Hc as [sa [fa [Ha _]]]. unfold cres in Ha. injection Ha as _ Ef.
      apply (function_elements fa Ef). }
    destruct (proj1 (collocation_unpack_spec _ k raw HK) Lr) as [r [_ [Sr Er]]]. rewrite <- Er in Hc.
    destruct (reads_exist k pts r (given_p p ++ st_mu s) (fun el => given_in th el ++ nu_in s el) Hpts Sr) as [q R].
    destruct (computed F points opts a own_p own_theta HF T Hpts C s p th r q (fitting_of _ _ _ _ _ _ G S) Sr R theta_k s1 errors J Hskip Hc)
      as [new [al [eq [M [L S1]]]]].
    pose proof S as [Z1 [Z2 Z3]].
    assert (Sv : well_sized a (set_st_violations al eq s)) by (split; [exact Z1 | split; assumption]).
    assert (Sn : well_sized a (set_nu_tilde new (set_st_violations al eq s))).
    { split; [exact Z1|]. split; [exact Z2|]. intros d Hd. injection Hd as <-. apply M. }
    destruct (al_skip_nu opts); [rewrite S1; exact Sv|].
    destruct (st_last s); [|rewrite S1; exact Sn].
    destruct (_ && _)%bool; [|rewrite S1; exact Sn].
    unfold take_improvements in S1. cbn [st_last set_st_violations] in S1. destruct (st_last s) as [lst|]; [|injection S1 as <-; exact Sv].
    apply (crun_ind_ok _ _ _ (well_sized a)) in S1; [exact S1| |exact Sv].
    intros o z z' _ Hz Ho. apply (improvement_sized _ _ _ _ _ _ _ Hz Ho).
  Qed.

  Variable ocp_solve : list sub_call -> res (list Q).
  Hypothesis Hsolve : forall calls raw, ocp_solve calls = Ok raw -> length raw = collocation_size k.

  Lemma run_sized : forall steps guess s calls, well_sized a s ->
      al_run F opts f (k_elements k) ocp_solve p th guess s calls steps ->
      forall z, In z steps -> well_sized a (as_before z) /\ length (as_raw z) = collocation_size k /\
        sc_p (as_call z) = given_p p ++ st_mu (as_before z) /\
        (match th with Some d => join_thetas [Some d; Some (st_nu (as_before z))] | None => Ok (st_nu (as_before z)) end) = Ok (sc_theta (as_call z)) /\
        update_parameters F opts f (k_elements k) p th (as_raw z) (as_before z) = (as_after z, Ok (as_errors z)).
  Proof.
    intros steps. induction steps as [|z0 rest IH]; intros guess s calls S H z Hz; [contradiction|].
    cbn [al_run] in H. destruct H as [H1 [H2 [H3 [H4 [H5 [H6 [H7 H8]]]]]]].
    assert (Sb : well_sized a (as_before z0)) by (rewrite H1; apply take_sized, S).
    destruct Hz as [<-|Hz].
    - split; [exact Sb|]. split; [apply (Hsolve _ _ H5)|]. split; [exact H3|]. split; [exact H4 | exact H6].
    - apply (IH _ _ _ (update_sized _ _ _ _ (Hsolve _ _ H5) Sb H6) H8 z Hz).
  Qed.

  Lemma theta_in_call : forall s c, well_sized a s ->
      (match th with Some d => join_thetas [Some d; Some (st_nu s)] | None => Ok (st_nu s) end) = Ok (sc_theta c) ->
      forall el, el < k_elements k -> theta_in c el = given_in th el ++ nu_in s el.
  Proof.
    intros s c [_ [S2 _]] J el Hel. destruct (S2 el Hel) as [v [Ev _]]. unfold theta_in, nu_in, given_in. rewrite Ev.
    destruct th as [d|].
    - rewrite (proj2 (join_thetas_lookup _ _ J) el). unfold theta_values. cbn [flat_map]. rewrite Ev.
      destruct (dget Nat.eqb el d); cbn [app concat]; rewrite ?app_nil_r; reflexivity.
    - injection J as J. rewrite <- J, Ev. reflexivity.
  Qed.

  (** Stopping before the last pass. *)
  Lemma run_tolerance : forall guess s st v r q c,
      al_skip_compute opts = false -> well_sized a s ->
      call_solver F opts f (k_elements k) false ocp_solve p th guess (s, []) = (st, Ok v) ->
      length (snd st) < al_max_iter opts ->
      hd_error (snd st) = Some c -> collocation_shape k r -> fst (fst v) = flatten r ->
      reads k pts r (sc_p c) (theta_in c) q ->
      forall g el tau, In g (relaxed_equations a) -> el < k_elements k -> In tau pts ->
        (Qabs (value_on F k q el tau g) < al_tol opts)%Q.
  Proof.
    intros guess s [s' calls] v r q c Hskip S H Hlt Hc Sr Er R g el tau Hg Hel Ht. unfold call_solver in H.
    apply run_refined in H. destruct H as [steps [Hrun [Ecalls [_ Hlast]]]]. cbn [snd] in *. rewrite app_nil_r in Ecalls.
    destruct (rev steps) as [|z l] eqn:Erev; [destruct Hlast as [_ [H _]]; discriminate|].
    destruct Hlast as [_ [Ev Hb]]. rewrite <- map_rev, Erev in Ecalls. rewrite Ecalls in Hc. cbn [map hd_error] in Hc. injection Hc as <-.
    destruct Hb as [Hb|Hb]; [rewrite Ecalls in Hlt; apply (f_equal (@length _)) in Erev; rewrite rev_length in Erev; rewrite map_length in Hlt; lia|].
    assert (Hz : In z steps) by (apply in_rev; rewrite Erev; left; reflexivity).
    destruct (run_sized steps guess s [] S Hrun z Hz) as [Sb [_ [Ep [Et Hu]]]].
    rewrite Ev in Er. cbn [returned fst] in Er. rewrite Er in Hu.
    assert (R' : reads k pts r (given_p p ++ st_mu (as_before z)) (fun el => given_in th el ++ nu_in (as_before z) el) q).
    { rewrite <- Ep. destruct R as [R1 R2 R3 R4 R5 R6 R7]. constructor; try assumption.
      intros el' Hel'. rewrite (R5 el' Hel'). apply (theta_in_call _ _ Sb Et el' Hel'). }
    destruct (updated_errors F points opts a own_p own_theta HF T Hpts C (as_before z) p th r q (fitting_of _ _ _ _ _ _ G Sb) Sr R' Hskip _ _ Hu) as [[Le He] _].
    apply In_nth_error in Hg. destruct Hg as [i Hi].
    destruct (nth_error (as_errors z) i) as [err|] eqn:Ee.
    - destruct (He i g err Hi Ee) as [Hle _]. eapply Qle_lt_trans; [apply (Hle el tau Hel Ht)|].
      unfold below in Hb. rewrite Forall_forall in Hb. apply Hb, (nth_error_In _ _ Ee).
    - apply nth_error_None in Ee. assert (i < length (relaxed_equations a)) by (apply nth_error_Some; congruence).
      unfold relaxed_count in Le. lia.
  Qed.
End Sizes.

(** ** Without updates *)

Lemma iterations_fixed : forall F opts f K ocp_solve p th n guess lst s calls st v,
    iterations F opts f K true ocp_solve p th n guess lst (s, calls) = (st, Ok v) -> n <> 0 ->
    exists new theta_k, snd st = new ++ calls /\ length new = n /\ fst st = take_nu_tilde s /\
      join_nu_to_theta th (st_nu (take_nu_tilde s)) = Ok theta_k /\
      Forall (fun c => sc_p c = given_p p ++ st_mu s /\ sc_theta c = theta_k) new /\
      snd v = theta_k /\ snd (fst v) = given_p p ++ st_mu s.
Proof.
  intros F opts f K ocp_solve p th n. induction n as [|n IH]; intros guess lst s calls st v H Hn; [contradiction|].
  cbn [iterations] in H. unfold cbind in H. destruct (iteration _ _ _ _ _ _ _ _ _ _) as [s1 [out|e]] eqn:Ei; [|discriminate].
  unfold iteration in Ei. cbn [fst snd] in Ei.
  destruct (join_nu_to_theta th (st_nu (take_nu_tilde s))) as [theta_k|] eqn:Ej; [|discriminate].
  set (c := mkSub guess (with_mu p (st_mu (take_nu_tilde s))) theta_k) in Ei.
  destruct (ocp_solve (c :: calls)) as [raw|] eqn:Es; [|discriminate]. injection Ei as <- <-. cbn [fst snd] in H.
  assert (Hmu : st_mu (take_nu_tilde s) = st_mu s) by (unfold take_nu_tilde; destruct (st_nu_tilde s); reflexivity).
  assert (Hc : sc_p c = given_p p ++ st_mu s /\ sc_theta c = theta_k).
  { cbn [c sc_p sc_theta]. rewrite Hmu. split; [destruct p; reflexivity | reflexivity]. }
  destruct n as [|n].
  - cbn [iterations] in H. unfold cret in H. injection H as <- <-. exists [c], theta_k. cbn [snd fst app length].
    split; [reflexivity|]. split; [reflexivity|]. split; [reflexivity|]. split; [reflexivity|].
    split; [constructor; [exact Hc | constructor]|]. split; [reflexivity | apply Hc].
  - apply IH in H; [|discriminate]. destruct H as [new [theta_k' [E1 [E2 [E3 [E4 [E5 [E6 E7]]]]]]]].
    assert (Et : take_nu_tilde (take_nu_tilde s) = take_nu_tilde s).
    { unfold take_nu_tilde. destruct (st_nu_tilde s) eqn:E; [reflexivity|]. rewrite E. reflexivity. }
    rewrite Et in E3, E4. rewrite Ej in E4. injection E4 as <-. rewrite Hmu in E5, E7.
    exists (new ++ [c]), theta_k. split; [rewrite E1, <- app_assoc; reflexivity|]. split; [rewrite app_length, E2; cbn; lia|].
    split; [exact E3|]. split; [reflexivity|]. split; [apply Forall_app; split; [exact E5 | constructor; [exact Hc | constructor]]|].
    split; assumption.
Qed.

(** ** Failing runs *)

Lemma run_failed : forall F opts f K ocp_solve p th n guess lst s calls st e,
    iterations F opts f K false ocp_solve p th n guess lst (s, calls) = (st, Raise e) ->
    (n = 0 /\ lst = None /\ e = UnboundLocalError /\ st = (s, calls)) \/
    exists steps s0 guess0, al_run F opts f K ocp_solve p th guess s calls steps /\ length steps < n /\
      s0 = take_nu_tilde (match rev steps with z :: _ => as_after z | [] => s end) /\
      guess0 = (match rev steps with z :: _ => Some (as_raw z) | [] => guess end) /\
      ((join_nu_to_theta th (st_nu s0) = Raise e /\ st = (s0, rev (map as_call steps) ++ calls)) \/
       exists theta_k, join_nu_to_theta th (st_nu s0) = Ok theta_k /\
         let c := mkSub guess0 (given_p p ++ st_mu s0) theta_k in
         let made := c :: rev (map as_call steps) ++ calls in
         ((ocp_solve made = Raise e /\ st = (s0, made)) \/
          exists raw s1, ocp_solve made = Ok raw /\ update_parameters F opts f K p th raw s0 = (s1, Raise e) /\ st = (s1, made))).
Proof.
  intros F opts f K ocp_solve p th n. induction n as [|n IH]; intros guess lst s calls st e H; cbn [iterations] in H.
  - left. destruct lst; [discriminate|]. unfold craise in H. injection H as <- <-. auto.
  - right. unfold cbind in H. destruct (iteration _ _ _ _ _ _ _ _ _ _) as [s1 out] eqn:Ei.
    unfold iteration in Ei. cbn [fst snd] in Ei.
    destruct (join_nu_to_theta th (st_nu (take_nu_tilde s))) as [theta_k|e'] eqn:Ej.
    2: { injection Ei as <- <-. injection H as <- <-. exists [], (take_nu_tilde s), guess. cbn [rev map app al_run length].
         split; [exact I|]. split; [lia|]. split; [reflexivity|]. split; [reflexivity|]. left. split; [exact Ej | reflexivity]. }
    rewrite with_mu_is in Ei.
    set (c := mkSub guess (given_p p ++ st_mu (take_nu_tilde s)) theta_k) in Ei.
    destruct (ocp_solve (c :: calls)) as [raw|e'] eqn:Es.
    2: { injection Ei as <- <-. injection H as <- <-. exists [], (take_nu_tilde s), guess. cbn [rev map app al_run length].
         split; [exact I|]. split; [lia|]. split; [reflexivity|]. split; [reflexivity|]. right. exists theta_k. split; [exact Ej|].
         left. split; [exact Es | reflexivity]. }
    destruct (update_parameters F opts f K p th raw (take_nu_tilde s)) as [s2 [errors|e']] eqn:Eu.
    2: { injection Ei as <- <-. injection H as <- <-. exists [], (take_nu_tilde s), guess. cbn [rev map app al_run length].
         split; [exact I|]. split; [lia|]. split; [reflexivity|]. split; [reflexivity|]. right. exists theta_k. split; [exact Ej|].
         right. exists raw, s2. split; [exact Es|]. split; [exact Eu | reflexivity]. }
    injection Ei as <- <-. cbn [fst snd] in H. destruct (forallb _ errors) eqn:Eb; [discriminate|].
    apply IH in H. destruct H as [[_ [H _]]|H]; [discriminate|]. cbn [fst returned] in H.
    destruct H as [steps [s0 [guess0 [Hr [Hl [E1 [E2 H]]]]]]].
    set (z := mkStep (take_nu_tilde s) c raw errors s2). exists (z :: steps), s0, guess0.
    assert (Hb : ~ below (al_tol opts) errors) by (intros Hb; apply below_tol in Hb; congruence).
    split.
    { cbn [al_run as_before as_call as_raw as_errors as_after z c sc_guess sc_p sc_theta].
      split; [reflexivity|]. split; [reflexivity|]. split; [reflexivity|]. split; [exact Ej|]. split; [exact Es|]. split; [exact Eu|].
      split; [intros _; exact Hb | exact Hr]. }
    split; [cbn [length]; lia|].
    assert (Lasts : forall B (g : al_step -> B) d, (match rev (z :: steps) with y :: _ => g y | [] => d end) = match rev steps with y :: _ => g y | [] => g z end).
    { intros B g d. cbn [rev]. destruct (rev steps); reflexivity. }
    rewrite (Lasts _ as_after), (Lasts _ (fun y => Some (as_raw y))). split; [exact E1|]. split; [exact E2|].
    cbn [map rev]. rewrite <- app_assoc. exact H.
Qed.

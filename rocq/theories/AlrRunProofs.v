(** Proofs about the results of runs of the augmented Lagrangian method. *)
From Coq Require Import String Lqa Qabs.
From Verif Require Import Base BaseProofs UtilModel UtilProofs ExprModel ExprProofs NlpModel NlpSpec SysModel
  SysSpec OcpModel OcpSpec LagModel DiscModel DiscSpec DiscProofs DataModel DataSpec
  ColSpec ColPolyProofs ColEvalProofs ColProofs ColElementProofs PlantProofs ResModel ResSpec ResProofs ResAccessProofs
  AugModel AugSpec AugUpdateProofs AugProofs AugLoopProofs AugRunProofs AugMoreProofs AlrModel AlrSpec AlrProofs.
Local Open Scope list_scope.
Local Open Scope nat_scope.

(** The violations on a trajectory, column by column. *)
Definition violated_by (F : nat -> Q -> Q) (k : method) (pts : list Q) (q : trajectory) (gs : list expr) (l : list (list (list Q))) : Prop :=
  pointwise k (length gs) l /\
  forall el j tau i g, el < k_elements k -> nth_error pts j = Some tau -> nth_error gs i = Some g ->
    exists v, kept l el j i = Some v /\ (v == value_on F k q el tau g)%Q.

Section Violations.
  Variables (F : nat -> Q -> Q) (points : nat -> list Q) (opts : al_options) (a : augmented) (own_p own_theta : list sym).
  Let k : method := ag_method a.
  Let pts : list Q := points (k_degree k).
  Hypothesis HF : respects F.
  Hypothesis T : transcribable k.
  Hypothesis Hpts : collocation_points pts (k_degree k).
  Hypothesis C : carries F pts a own_p own_theta.
  Variables (s : aug_state) (p : option (list Q)) (th : option (theta Q)) (r : traj Q) (q : trajectory).
  Hypothesis Fi : fitting a own_p own_theta s p th.
  Hypothesis Sr : collocation_shape k r.
  Hypothesis R : reads k pts r (given_p p ++ st_mu s) (fun el => given_in th el ++ nu_in s el) q.
  Hypothesis Hskip : al_skip_compute opts = false.

  Lemma columns_violated : forall ths (out : list (list (list Q * list Q * list Q))) (f : list Q * list Q * list Q -> list Q) gs,
      length out = k_elements k ->
      (forall i, i < k_elements k -> exists cols, nth_error out i = Some cols /\ length cols = k_degree k /\
        forall j tau, nth_error pts j = Some tau -> exists o, nth_error cols j = Some o /\ numbers_at F a own_theta ths q i j tau (st_mu s) o) ->
      (forall i j tau o, numbers_at F a own_theta ths q i j tau (st_mu s) o -> Forall2 Qeq (f o) (map (value_on F k q i tau) gs)) ->
      violated_by F k pts q gs (map (map f) out).
  Proof.
    intros ths out f gs Lo G Hf. split; [split; [rewrite map_length; exact Lo|]|].
    - apply Forall_map, Forall_forall. intros cols Hin. apply In_nth_error in Hin. destruct Hin as [i Hi].
      assert (Hlt : i < k_elements k) by (rewrite <- Lo; apply nth_error_Some; congruence).
      destruct (G i Hlt) as [cols' [E1 [E2 E3]]]. rewrite Hi in E1. injection E1 as <-.
      split; [rewrite map_length; exact E2|]. apply Forall_map, Forall_forall. intros c Hc. apply In_nth_error in Hc. destruct Hc as [j Hj].
      assert (Hjl : j < length pts). { destruct Hpts as [Hl _]. rewrite Hl, <- E2. apply nth_error_Some. congruence. }
      destruct (nth_error pts j) as [tau|] eqn:Et; [|apply nth_error_None in Et; lia].
      destruct (E3 j tau Et) as [o [Eo No]]. rewrite Hj in Eo. injection Eo as <-.
      pose proof (Forall2_len _ _ _ _ _ (Hf _ _ _ _ No)) as L. rewrite map_length in L. exact L.
    - intros el j tau i g Hel Hj Hg. destruct (G el Hel) as [cols [E1 [E2 E3]]]. destruct (E3 j tau Hj) as [o [Eo No]].
      unfold kept. rewrite (nth_error_nth _ _ _ (map_nth_error _ _ _ E1)), (map_nth_error _ _ _ Eo).
      destruct (Forall2_nth' _ _ _ _ _ _ _ (Hf _ _ _ _ No) (map_nth_error _ _ _ Hg)) as [v [Ev Vv]]. exists v. auto.
  Qed.

  Lemma updated_violations : forall s' errors,
      update_parameters F opts (create_nu_update_func points a) (k_elements k) p th (flatten r) s = (s', Ok errors) ->
      violated_by F k pts q (ag_alg a) (st_alg s') /\ violated_by F k pts q (ag_eq a) (st_eq s') /\
      (al_improve opts = false -> st_nu s' = st_nu s).
  Proof.
    intros s' errors Hup. destruct (update_steps _ _ _ _ _ _ _ _ _ _ Hup) as [theta_k [s1 [s2 [J [H [Hm ->]]]]]].
    cbn [set_st_last st_alg st_eq st_nu]. pose proof (update_mu_only _ _ _ _ _ _ Hm) as Es2. rewrite Es2. cbn [set_st_mu st_alg st_eq st_nu]. clear Es2 Hm.
    unfold compute_new_nu_and_error in H.
    destruct (create_nu_update_func points a) as [f|] eqn:Ef; [|discriminate].
    apply cbind_back in H. destruct H as [sa [fa [Ha H]]]. injection Ha as <- <-. rewrite Hskip in H.
    apply cbind_back in H. destruct H as [sa [ths [Ha H]]]. unfold cres in Ha. injection Ha as <- L.
    apply cbind_back in H. destruct H as [sa [out [Ha H]]]. unfold cres in Ha. injection Ha as <- Hc.
    destruct (called_numbers F points a own_p own_theta HF T Hpts C s p th r q Fi Sr R f theta_k ths out J L Ef Hc) as [Lo [HK G]].
    apply cbind_back in H. destruct H as [s0 [[] [Ha H]]]. unfold cmodify in Ha. injection Ha as <-.
    apply cbind_back in H. destruct H as [s3 [[] [Ha H]]]. unfold cret in H. injection H as <- _.
    set (al := map (map (fun c => snd (fst c))) out) in Ha. set (eq := map (map snd) out) in Ha.
    assert (E : st_alg s3 = al /\ st_eq s3 = eq /\ (al_improve opts = false -> st_nu s3 = st_nu s)).
    { destruct (al_skip_nu opts); [injection Ha as <-; auto|].
      cbn [st_last set_st_violations] in Ha. destruct (st_last s); [|injection Ha as <-; auto].
      destruct (al_improve opts) eqn:Hi; cbn [andb] in Ha; [|injection Ha as <-; auto].
      destruct (existsb _ _); [|injection Ha as <-; auto].
      destruct (improvements_mu _ _ _ _ _ Ha) as [_ [E1 E2]]. split; [exact E1|]. split; [exact E2 | discriminate]. }
    destruct E as [-> [-> En]]. split; [|split; [|exact En]].
    - apply (columns_violated ths out (fun c => snd (fst c)) (ag_alg a) Lo G). intros i j tau o N. apply (nb_alg _ _ _ _ _ _ _ _ _ _ N).
    - apply (columns_violated ths out snd (ag_eq a) Lo G). intros i j tau o N. apply (nb_eq _ _ _ _ _ _ _ _ _ _ N).
  Qed.
End Violations.

Section Solved.
  Variables (F : nat -> Q -> Q) (points : nat -> list Q) (opts : al_options) (a : augmented) (own_p own_theta : list sym).
  Variable evaluated : traj Q -> arguments -> list (list Q) -> res (list (list (list Q))).
  Variables (names : list string * list string * list string * list string) (x_cost : option (list sym)).
  Let k : method := ag_method a.
  Let pts : list Q := points (k_degree k).
  Hypothesis HF : respects F.
  Hypothesis T : transcribable k.
  Hypothesis Hpts : collocation_points pts (k_degree k).
  Hypothesis C : carries F pts a own_p own_theta.
  Hypothesis Ag : agreeing opts k.
  Variables (p : option (list Q)) (th : option (theta Q)).
  Hypothesis G : well_given a own_p own_theta p th.
  Variable ocp_solve : list sub_call -> res (list Q).
  Hypothesis Hsolve : forall calls raw, ocp_solve calls = Ok raw -> length raw = collocation_size k.

  Lemma solved : forall guess x_0 s st r e,
      al_skip_compute opts = false -> well_sized a s ->
      al_solve points opts evaluated Collocation k names x_cost F (create_nu_update_func points a) false ocp_solve p th guess x_0 (s, [])
        = (st, Ok (r, e)) ->
      exists c raw, hd_error (snd st) = Some c /\ ocp_solve (snd st) = Ok raw /\
        (al_improve opts = false -> forall el j i, el < k_elements k -> j < k_degree k -> i < relaxed_count a ->
           stored r "nu" el j i = nth_error (theta_in c el) (length own_theta + (j * relaxed_count a + i))) /\
        forall z q, collocation_shape k z -> raw = flatten z -> reads k pts z (sc_p c) (theta_in c) q ->
          w_x r = states_of Collocation z /\ w_y r = r_y z /\
          reports F k pts q r "alg_violation" (ag_alg a) /\ reports F k pts q r "eq_violation" (ag_eq a) /\
          exists errors, e = Some errors /\ largest F pts a q errors.
  Proof.
    intros guess x_0 s [s' calls] r e Hskip S H. unfold al_solve in H.
    apply cbind_back in H. destruct H as [[s1 calls1] [v [Hrun H]]]. cbn [fst] in H.
    destruct (al_result _ _ _ _ _ _ _ _ _ _ _) as [args' out] eqn:Eres. cbn [snd] in H. injection H as <- <- ->.
    unfold call_solver in Hrun. apply run_refined in Hrun. destruct Hrun as [steps [Hrun [Ecalls [_ Hlast]]]]. rewrite app_nil_r in Ecalls.
    destruct (rev steps) as [|z l] eqn:Erev; [destruct Hlast as [_ [H _]]; discriminate|].
    destruct Hlast as [Es [Ev _]]. rewrite <- map_rev, Erev in Ecalls.
    assert (Hz : In z steps) by (apply in_rev; rewrite Erev; left; reflexivity).
    destruct (run_sized F points opts a own_p own_theta HF T Hpts C p th G ocp_solve Hsolve steps guess s [] S Hrun z Hz) as [Sb [Lr [Ep [Et Hu]]]].
    assert (Hcall : ocp_solve calls1 = Ok (as_raw z)).
    { rewrite Ecalls. clear - Hrun Erev. assert (Gen : forall steps guess s calls z l, rev steps = z :: l ->
          al_run F opts (create_nu_update_func points a) (k_elements k) ocp_solve p th guess s calls steps ->
          ocp_solve (map as_call (z :: l) ++ calls) = Ok (as_raw z)).
      { clear. intros steps. induction steps as [|z0 rest IH]; intros guess s calls z l Erev H; [discriminate|].
        cbn [al_run] in H. destruct H as [_ [_ [_ [_ [H5 [_ [_ H8]]]]]]]. cbn [rev] in Erev.
        destruct (rev rest) as [|y l'] eqn:Er.
        - cbn [app] in Erev. injection Erev as <- <-. exact H5.
        - cbn [app] in Erev. injection Erev as <- <-. pose proof (IH _ _ _ _ _ eq_refl H8) as H.
          rewrite map_cons, map_app in *. cbn [map app] in *. rewrite <- app_assoc. exact H. }
      pose proof (Gen _ _ _ _ _ _ Erev Hrun) as H. rewrite app_nil_r in H. exact H. }
    assert (HK : k_elements k <> 0).
    { destruct (result_inv _ _ _ _ _ _ _ _ _ _ _ _ _ _ Eres) as [r0 [nu [alg [eq [dt [bps [ts [_ [_ [Hb _]]]]]]]]]].
      apply (breakpoints_ok _ _ Hb). }
    exists (as_call z), (as_raw z). cbn [snd]. split; [rewrite Ecalls; reflexivity|]. split; [exact Hcall|].
    (* the values read *)
    destruct (proj1 (collocation_unpack_spec _ k (as_raw z) HK) Lr) as [zz [_ [Szz Ezz]]].
    assert (Viol : forall y q, collocation_shape k y -> as_raw z = flatten y -> reads k pts y (sc_p (as_call z)) (theta_in (as_call z)) q ->
              violated_by F k pts q (ag_alg a) (st_alg s1) /\ violated_by F k pts q (ag_eq a) (st_eq s1) /\
              (al_improve opts = false -> st_nu s1 = st_nu (as_before z)) /\ largest F pts a q (as_errors z) /\ st_last s1 = Some (as_errors z)).
    { intros y q Sy Ey R.
      assert (R' : reads k pts y (given_p p ++ st_mu (as_before z)) (fun el => given_in th el ++ nu_in (as_before z) el) q).
      { rewrite <- Ep. destruct R as [R1 R2 R3 R4 R5 R6 R7]. constructor; try assumption.
        intros el' Hel'. rewrite (R5 el' Hel'). apply (theta_in_call a own_p own_theta p th G _ _ Sb Et el' Hel'). }
      rewrite Ey in Hu. rewrite Es.
      destruct (updated_violations F points opts a own_p own_theta HF T Hpts C (as_before z) p th y q (fitting_of _ _ _ _ _ _ G Sb) Sy R' Hskip _ _ Hu) as [V1 [V2 V3]].
      destruct (updated_errors F points opts a own_p own_theta HF T Hpts C (as_before z) p th y q (fitting_of _ _ _ _ _ _ G Sb) Sy R' Hskip _ _ Hu) as [V4 V5].
      auto. }
    destruct (reads_exist k pts zz (sc_p (as_call z)) (theta_in (as_call z)) Hpts Szz) as [qq Rqq].
    destruct (Viol zz qq Szz (eq_sym Ezz) Rqq) as [[PA _] [[PE _] [Vn _]]].
    assert (Sa : well_sized a s1).
    { rewrite Es. apply (update_sized F points opts a own_p own_theta HF T Hpts C p th G (as_raw z) (as_before z) (as_after z) (as_errors z) Lr Sb Hu). }
    assert (Rp : reportable k (relaxed_count a) (length (ag_alg a)) (length (ag_eq a)) s1).
    { constructor; [exact (proj1 (proj2 Sa)) | exact PA | exact PE]. }
    assert (Hp : length (points (k_degree k)) = k_degree k) by (destruct Hpts as [Hl _]; exact Hl).
    destruct (result_holds points opts evaluated Collocation k names x_cost Ag Hp _ _ _ _ _ _ _ _ _ _ Eres Rp) as [Ee [_ [Vals _]]].
    split.
    - intros Hi el j i Hel Hj Hi'. destruct (Vals el j i Hel Hj) as [-> _]; [|exact Hi']. rewrite (Vn Hi).
      destruct Sb as [B1 [B2 B3]]. destruct (B2 el Hel) as [v0 [Ev0 Lv0]].
      rewrite (theta_in_call a own_p own_theta p th G _ _ (conj B1 (conj B2 B3)) Et el Hel).
      rewrite nth_error_app2 by (rewrite (proj2 G el Hel); lia). rewrite (proj2 G el Hel).
      unfold multiplier, nu_in. rewrite Ev0. f_equal. lia.
    - intros y q Sy Ey R. destruct (Viol y q Sy Ey R) as [[_ VA] [[_ VE] [_ [VL Vlast]]]].
      destruct (result_inv _ _ _ _ _ _ _ _ _ _ _ _ _ _ Eres) as [r0 [nu [alg [eq [dt [bps [ts [H0 [_ [_ [_ [_ [_ [_ [_ Er]]]]]]]]]]]]]]].
      assert (Hv : fst (fst v) = flatten y) by (rewrite Ev; exact Ey).
      assert (Hxy : w_x r0 = states_of Collocation y /\ w_y r0 = r_y y).
      { rewrite Hv in H0. unfold create_optimization_result in H0.
        apply cbind_back in H0. destruct H0 as [b1 [dt1 [_ H0]]]. apply cbind_back in H0. destruct H0 as [b2 [bps1 [_ H0]]].
        apply cbind_back in H0. destruct H0 as [b3 [rr [Hr H0]]].
        apply cbind_back in H0. destruct H0 as [b4 [[] [_ H0]]]. apply cbind_back in H0. destruct H0 as [b5 [[] [_ H0]]].
        apply cbind_back in H0. destruct H0 as [b6 [u0 [_ H0]]]. apply cbind_back in H0. destruct H0 as [b7 [u1 [_ H0]]].
        apply cbind_back in H0. destruct H0 as [b8 [cost [_ H0]]].
        unfold cres in Hr. injection Hr as _ Hr. cbn [unpack_with] in Hr.
        assert (E : collocation_unpack k (flatten y) = Ok (with_last_state y)).
        { apply collocation_unpack_flatten; assumption. }
        rewrite E in Hr. injection Hr as <-. injection H0 as _ <-. cbn [w_x w_y].
        split; reflexivity. }
      split; [rewrite Er; exact (proj1 Hxy)|]. split; [rewrite Er; exact (proj2 Hxy)|].
      split; [|split; [|exists (as_errors z); split; [rewrite Ee; exact Vlast | exact VL]]].
      + intros el j tau i g Hel Hj Hg. destruct (VA el j tau i g Hel Hj Hg) as [w [Ew Vw]]. exists w. split; [|exact Vw].
        assert (Hj' : j < k_degree k) by (rewrite <- Hp; apply nth_error_Some; fold pts; rewrite Hj; discriminate).
        destruct (Vals el j i Hel Hj') as [_ [Q2 _]]; rewrite Q2; [exact Ew | apply nth_error_Some; rewrite Hg; discriminate].
      + intros el j tau i g Hel Hj Hg. destruct (VE el j tau i g Hel Hj Hg) as [w [Ew Vw]]. exists w. split; [|exact Vw].
        assert (Hj' : j < k_degree k) by (rewrite <- Hp; apply nth_error_Some; fold pts; rewrite Hj; discriminate).
        destruct (Vals el j i Hel Hj') as [_ [_ Q2]]; rewrite Q2; [exact Ew | apply nth_error_Some; rewrite Hg; discriminate].
  Qed.
End Solved.

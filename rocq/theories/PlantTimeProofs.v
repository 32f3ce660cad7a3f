(** Proofs about the time of simulated plants. *)
From Coq Require Import String Sorted Lqa.
From Verif Require Import Base BaseProofs UtilModel ExprModel SysModel SimModel SimProofs DataModel DataSpec DataProofs OcpModel DiscModel PlantModel PlantSpec PlantProofs.
Local Open Scope list_scope.
Local Open Scope cmd_scope.
Local Open Scope Q_scope.

(** ** Order of the records *)

(** The entries named in [L] end strictly before the time of the plant. *)
Definition ordered (L : list string) (s : plant) : Prop :=
  consistent (a_data s) /\ sized (a_data s) /\
  forall k e, look k (a_data s) = Some e ->
    StronglySorted (fun a b => fst a < fst b) (points e) /\ Forall (fun p => fst p <= a_t s) (points e) /\
    (In k L -> Forall (fun p => fst p < a_t s) (points e)).

Lemma sorted_snoc : forall (l : list (Q * list Q)) p,
    StronglySorted (fun a b => fst a < fst b) l -> Forall (fun q => fst q < fst p) l ->
    StronglySorted (fun a b => fst a < fst b) (l ++ [p]).
Proof.
  intros l p S H. induction S as [|a l S IH Ha]; cbn.
  - constructor; constructor.
  - inversion H; subst. constructor; [auto|]. apply Forall_app. split; [exact Ha|]. constructor; [assumption|constructor].
Qed.

Lemma ordered_weaken : forall L L' s, incl L' L -> ordered L s -> ordered L' s.
Proof.
  intros L L' s I [C [S H]]. split; [exact C|]. split; [exact S|]. intros k e He. destruct (H k e He) as [A [B D]].
  split; [exact A|]. split; [exact B|]. intros X. apply D, I, X.
Qed.

Lemma record_ordered : forall k v L s, ordered (k :: L) s -> ~ In k L ->
    ordered L (fst (record k v s)) /\ a_t (fst (record k v s)) = a_t s.
Proof.
  intros k v L s O Nk. assert (O0 := O). destruct O as [C [S H]].
  destruct (record_cases k v s C S) as [[e [e' [E1 [E2 [E3 [E4 [E5 [E6 [E7 E8]]]]]]]]]|[x [E _]]].
  - rewrite E2. cbn [fst]. split; [|reflexivity].
    split; [apply consistent_put; assumption|]. split; [eapply sized_put; eauto|].
    intros k' e0 He. cbn [a_data set_a_data] in He. rewrite look_put in He. cbn [a_t set_a_data].
    destruct (String.eqb_spec k' k) as [->|N].
    + injection He as <-. destruct (H k e E1) as [A [B D]]. rewrite E4.
      split; [apply sorted_snoc; [exact A|apply D; left; reflexivity]|].
      split; [|intros X; contradiction]. apply Forall_app. split; [exact B|]. repeat constructor. cbn. lra.
    + destruct (H k' e0 He) as [A [B D]]. split; [exact A|]. split; [exact B|]. intros X. apply D. right. exact X.
  - rewrite E. cbn [fst]. split; [|reflexivity]. eapply ordered_weaken; [|exact O0]. intros y Y. right. exact Y.
Qed.

Lemma ordered_time : forall s t, ordered [] s -> a_t s < t -> forall L, ordered L (set_a_t t s).
Proof.
  intros s t [C [S H]] Lt L. split; [exact C|]. split; [exact S|]. intros k e He. destruct (H k e He) as [A [B _]].
  split; [exact A|]. cbn [a_t set_a_t].
  assert (B' : Forall (fun p => fst p < t) (points e)).
  { eapply Forall_impl; [|exact B]. cbn. intros a Ha. lra. }
  split; [|intros _; exact B']. eapply Forall_impl; [|exact B']. cbn. intros a Ha. lra.
Qed.

Lemma cbind_cases : forall (S A B : Type) (m : cmd S A) (k : A -> cmd S B) s,
    (exists s1 a, m s = (s1, Ok a) /\ cbind m k s = k a s1) \/
    (exists s1 e, m s = (s1, Raise e) /\ cbind m k s = (s1, Raise e)).
Proof.
  intros S A B m k s. unfold cbind. destruct (m s) as [s1 [a|e]]; [left|right]; eauto.
Qed.

Lemma save_data_ordered : forall L x y u s, ordered ("x" :: "y" :: "u" :: L)%string s ->
    ~ In "x"%string L -> ~ In "y"%string L -> ~ In "u"%string L ->
    (exists L', incl L L' /\ ordered L' (fst (save_data x y u s))) /\
    a_t (fst (save_data x y u s)) = a_t s.
Proof.
  intros L x y u s O Nx Ny Nu. unfold save_data.
  destruct (record_ordered "x" x ("y" :: "u" :: L)%string s O) as [O1 T1]; [simpl; intuition discriminate|].
  destruct (cbind_cases _ _ _ (record "x" x) (fun _ => record "y" y;;; record "u" u) s) as [[s1 [[] [E1 ->]]]|[s1 [e [E1 ->]]]];
    rewrite E1 in O1, T1; cbn [fst] in *.
  2:{ split; [|exact T1]. exists ("y" :: "u" :: L)%string. split; [intros a Ha; simpl; tauto|exact O1]. }
  destruct (record_ordered "y" y ("u" :: L)%string s1 O1) as [O2 T2]; [simpl; intuition discriminate|].
  destruct (cbind_cases _ _ _ (record "y" y) (fun _ => record "u" u) s1) as [[s2 [[] [E2 ->]]]|[s2 [e [E2 ->]]]];
    rewrite E2 in O2, T2; cbn [fst] in *.
  2:{ split; [|congruence]. exists ("u" :: L)%string. split; [intros a Ha; simpl; tauto|exact O2]. }
  destruct (record_ordered "u" u L s2 O2 Nu) as [O3 T3]. split; [|congruence].
  exists L. split; [intros a Ha; exact Ha|exact O3].
Qed.

Lemma save_measurement_ordered : forall m s, ordered ["meas"; "meas_wo_noise"]%string s ->
    ordered [] (fst (save_measurement m s)) /\ a_t (fst (save_measurement m s)) = a_t s.
Proof.
  intros m s O. unfold save_measurement.
  destruct (record_ordered "meas" (fst m) ["meas_wo_noise"]%string s O) as [O1 T1]; [simpl; intuition discriminate|].
  destruct (cbind_cases _ _ _ (record "meas" (fst m)) (fun _ => record "meas_wo_noise" (snd m)) s) as [[s1 [[] [E1 ->]]]|[s1 [e [E1 ->]]]];
    rewrite E1 in O1, T1; cbn [fst] in *.
  2:{ split; [|exact T1]. eapply ordered_weaken; [|exact O1]. intros a []. }
  destruct (record_ordered "meas_wo_noise" (snd m) [] s1 O1) as [O2 T2]; [intros []|]. split; [exact O2|congruence].
Qed.

Section Time.
  Variable default : string -> nat -> string.
  Variable integrate : icall -> res (list Q * list Q).
  Variable defaults : options.
  Variable F : nat -> Q -> Q.
  Variables w_x w_m : nat -> list Q.
  Variable c : plant_config.
  Notation sample := (sample default integrate defaults F w_x c).
  Notation samples_from := (samples_from default integrate defaults F w_x c).
  Notation advance := (advance default integrate defaults F w_x w_m c).
  Notation step := (plant_step default integrate defaults F w_x w_m c).
  Notation M := ["meas"; "meas_wo_noise"]%string.

  (** Changes that concern neither the data nor the time. *)
  Definition same_book (s s' : plant) : Prop := a_t s' = a_t s /\ a_data s' = a_data s.
  Lemma ordered_same : forall L s s', same_book s s' -> ordered L s -> ordered L s'.
  Proof. intros L s s' [T D] O. unfold ordered in *. rewrite T, D. exact O. Qed.
  Lemma hold_same : forall s, same_book s (fst (hold s)).
  Proof. intros s. unfold hold. destruct (a_function s) as [f|]; [|split; reflexivity]. destruct (f (a_t s)); split; reflexivity. Qed.
  Lemma noise_same : forall x s, same_book s (fst (process_noise w_x c x s)).
  Proof. intros x s. unfold process_noise. destruct (f_noise c); [|split; reflexivity]. destruct (dm_add _ _); split; reflexivity. Qed.
  Lemma measure_same : forall x y s, same_book s (fst (measure w_m c x y s)).
  Proof.
    intros x y s. unfold measure, cbind, cres. destruct (dm_product _ _); [|split; reflexivity].
    destruct (f_noise c); [|split; reflexivity]. destruct (dm_add _ _); split; reflexivity.
  Qed.

  Lemma sample_ordered : forall t0 d s, ordered [] s -> a_t s < t0 + d * f_t_s c ->
      ordered [] (fst (sample t0 d s)) /\
      (forall r, snd (sample t0 d s) = Ok r -> ordered M (fst (sample t0 d s)) /\ a_t (fst (sample t0 d s)) = t0 + d * f_t_s c) /\
      (forall e, snd (sample t0 d s) = Raise e -> a_t s <= a_t (fst (sample t0 d s))).
  Proof.
    intros t0 d s O Lt. unfold PlantModel.sample. cbv zeta. fold hold.
    match goal with |- context [cbind hold ?k s] => destruct (cbind_cases _ _ _ hold k s) as [[s1 [[] [E1 ->]]]|[s1 [e [E1 ->]]]] end;
      pose proof (hold_same s) as B1; rewrite E1 in B1; cbn [fst] in B1.
    2:{ cbn [fst snd]. split; [eapply ordered_same; eauto|]. split; [discriminate|]. intros _ _. rewrite (proj1 B1). lra. }
    match goal with |- context [cbind ?m ?k s1] => destruct (cbind_cases _ _ _ m k s1) as [[s2 [r [E2 ->]]]|[s2 [e [E2 ->]]]] end;
      assert (s2 = s1) by congruence; subst s2.
    2:{ cbn [fst snd]. split; [eapply ordered_same; eauto|]. split; [discriminate|]. intros _ _. rewrite (proj1 B1). lra. }
    match goal with |- context [cbind ?m ?k s1] => destruct (cbind_cases _ _ _ m k s1) as [[s3 [x [E3 ->]]]|[s3 [e [E3 ->]]]] end;
      pose proof (noise_same (fst (fst r)) s1) as B2; rewrite E3 in B2; cbn [fst] in B2.
    2:{ cbn [fst snd]. split; [eapply ordered_same; [exact B2|]; eapply ordered_same; eauto|]. split; [discriminate|]. intros _ _. rewrite (proj1 B2), (proj1 B1). lra. }
    match goal with |- context [cbind (cmodify ?f) ?k s3] => rewrite (cbind_run _ _ _ (cmodify f) k s3 (f s3) tt) by reflexivity end.
    match goal with |- context [cbind (cmodify ?f) ?k ?z] => rewrite (cbind_run _ _ _ (cmodify f) k z (f z) tt) by reflexivity end.
    set (s4 := set_a_x x (set_a_t (t0 + d * f_t_s c) s3)).
    assert (O4 : forall L, ordered L s4).
    { intros L. apply (ordered_time s3); [|rewrite (proj1 B2), (proj1 B1); exact Lt].
      eapply ordered_same; [exact B2|]. eapply ordered_same; eauto. }
    assert (T4 : a_t s4 = t0 + d * f_t_s c) by reflexivity.
    destruct (save_data_ordered M x (snd (fst r)) (snd r) s4 (O4 _)) as [[L' [I5 O5]] T5];
      try (simpl; intuition discriminate).
    match goal with |- context [cbind ?m ?k s4] => destruct (cbind_cases _ _ _ m k s4) as [[s5 [[] [E5 ->]]]|[s5 [e [E5 ->]]]] end;
      rewrite E5 in O5, T5; unfold cret in *; cbn [fst snd] in *.
    - split; [eapply ordered_weaken; [|exact O5]; intros a []|]. split; [|discriminate].
      intros _ _. split; [eapply ordered_weaken; [exact I5|exact O5]|congruence].
    - split; [eapply ordered_weaken; [|exact O5]; intros a []|]. split; [discriminate|]. intros _ _. rewrite T5, T4. lra.
  Qed.

  Lemma samples_ordered : forall t0 l o s, ordered [] s -> StronglySorted Qlt l -> 0 < f_t_s c ->
      (forall d, In d l -> a_t s < t0 + d * f_t_s c) ->
      ordered [] (fst (samples_from t0 l o s)) /\ a_t s <= a_t (fst (samples_from t0 l o s)) /\
      (forall r, snd (samples_from t0 l o s) = Ok r -> l <> [] \/ ordered M s ->
         ordered M (fst (samples_from t0 l o s)) ) /\
      (forall r, snd (samples_from t0 l o s) = Ok r -> l <> [] -> a_t (fst (samples_from t0 l o s)) = t0 + last l 0 * f_t_s c).
  Proof.
    intros t0 l. induction l as [|d l IH]; intros o s O Hs Ts Hl.
    - cbn. split; [exact O|]. split; [lra|]. split; [intros r _ [X|X]; [congruence|exact X]|congruence].
    - cbn [PlantModel.samples_from]. destruct (sample_ordered t0 d s O) as [O1 [O2 O3]]; [apply Hl; left; reflexivity|].
      match goal with |- context [cbind ?m ?k s] => destruct (cbind_cases _ _ _ m k s) as [[s1 [xy [E1 ->]]]|[s1 [e [E1 ->]]]] end;
        rewrite E1 in O1, O2, O3; cbn [fst snd] in *.
      2:{ split; [exact O1|]. split; [apply (O3 e); reflexivity|]. split; discriminate. }
      destruct (O2 _ eq_refl) as [O4 T4]. inversion Hs as [|a b Hs' Hd]; subst.
      assert (Lt : a_t s < t0 + d * f_t_s c) by (apply Hl; left; reflexivity).
      destruct (IH (Some xy) s1 O1 Hs' Ts) as [I1 [I2 [I3 I4]]].
      { intros d' Hd'. rewrite T4. pose proof (proj1 (Forall_forall _ _) Hd d' Hd') as X. cbn in X. nra. }
      split; [exact I1|]. split; [rewrite T4 in I2; lra|]. split; [intros r Hr _; apply (I3 r Hr); right; exact O4|].
      intros r Hr _. destruct l as [|d' l]; [cbn in *; exact T4|]. rewrite (I4 r Hr) by discriminate. reflexivity.
  Qed.

  Hypothesis Pp : proper_points (f_points c).
  Hypothesis Ts : 0 < f_t_s c.

  Lemma advance_ordered : forall s, ordered [] s ->
      ordered [] (fst (advance s)) /\ a_t s <= a_t (fst (advance s)).
  Proof.
    intros s O. destruct Pp as [N [Hs Hp]].
    destruct (samples_ordered (a_t s) (f_points c) None s O Hs Ts) as [I1 [I2 [I3 I4]]].
    { intros d Hd. pose proof (proj1 (Forall_forall _ _) Hp d Hd) as X. cbn in X. nra. }
    unfold PlantModel.advance.
    match goal with |- context [cbind ?m ?k s] => destruct (cbind_cases _ _ _ m k s) as [[s1 [o [E1 ->]]]|[s1 [e [E1 ->]]]] end;
      rewrite E1 in I1, I2, I3, I4; cbn [fst snd] in *; [|split; assumption].
    destruct o as [[x y]|]; [|split; assumption].
    specialize (I3 _ eq_refl (or_introl N)).
    match goal with |- context [cbind ?m ?k s1] => destruct (cbind_cases _ _ _ m k s1) as [[s2 [m' [E2 ->]]]|[s2 [e [E2 ->]]]] end;
      pose proof (measure_same x y s1) as B; rewrite E2 in B; cbn [fst] in B.
    2:{ cbn [fst]. split; [eapply ordered_same; eauto|]. rewrite (proj1 B). exact I2. }
    destruct (save_measurement_ordered m' s2) as [J1 J2]; [eapply ordered_same; eauto|].
    match goal with |- context [cbind ?m ?k s2] => destruct (cbind_cases _ _ _ m k s2) as [[s3 [[] [E3 ->]]]|[s3 [e [E3 ->]]]] end;
      rewrite E3 in J1, J2; cbn [fst] in *.
    - unfold cmodify. cbn [fst]. split; [eapply ordered_same; [|exact J1]; split; reflexivity|].
      cbn [a_t set_a_measurement]. rewrite J2, (proj1 B). exact I2.
    - split; [exact J1|]. rewrite J2, (proj1 B). exact I2.
  Qed.
  Lemma step_ordered : forall op s, ordered [] s ->
      ordered [] (fst (step op s)) /\ a_t s <= a_t (fst (step op s)).
  Proof.
    intros [u|f] s O; cbn [plant_step].
    - unfold set_control, cguard, cmodify, cbind. destruct (negb _); [split; [exact O|cbn; lra]|].
      apply (advance_ordered (set_a_u u s)). exact O.
    - unfold set_control_function, cmodify, cbind. apply (advance_ordered (set_a_function (Some f) s)). exact O.
  Qed.
  Lemma history_ordered : forall ops s, ordered [] s ->
      ordered [] (run_caught step ops s) /\ a_t s <= a_t (run_caught step ops s).
  Proof.
    induction ops as [|op ops IH]; intros s O; [split; [exact O|cbn; lra]|]. cbn.
    destruct (step_ordered op s O) as [O1 T1]. destruct (IH _ O1) as [O2 T2]. split; [exact O2|]. unfold run_caught in T2. lra.
  Qed.
End Time.

Lemma blank_ordered : forall default c t x u f L, ordered L (mkPlant t x x u f 0 (blank default c)).
Proof.
  intros default c t x u f L. destruct (blank_kept default c t x u f) as [[_ [C [S _]]] Z].
  split; [exact C|]. split; [exact S|]. intros k e He. specialize (Z k). unfold stored, contents in Z. rewrite He in Z. cbn in Z.
  rewrite Z. split; [constructor|]. split; [constructor|]. intros _. constructor.
Qed.

Lemma new_ordered : forall default c x_0 u_0 f s, new_plant default c x_0 u_0 f = Ok s -> ordered [] s /\ a_t s = f_t_0 c.
Proof.
  intros default c x_0 u_0 f s H. unfold new_plant in H. rewrite blank_ok in H.
  destruct (dm_product _ _) as [m|]; [|discriminate].
  set (u := match u_0 with Some u => u | None => _ end) in *.
  pose proof (blank_ordered default c (f_t_0 c) x_0 u f ["x"; "y"; "u"; "meas"; "meas_wo_noise"]%string) as O0.
  destruct (save_data_ordered ["meas"; "meas_wo_noise"]%string x_0 (f_y_guess c) u _ O0) as [[L' [I1 O1]] T1];
    try (simpl; intuition discriminate).
  match type of H with context [cbind ?m ?k ?s0] => destruct (cbind_cases _ _ _ m k s0) as [[s1 [[] [E1 E]]]|[s1 [e [E1 E]]]] end;
    rewrite E in H; [|discriminate]. rewrite E1 in O1, T1. cbn [fst] in *.
  destruct (save_measurement_ordered (m, m) s1) as [O2 T2]; [eapply ordered_weaken; eauto|].
  destruct (save_measurement (m, m) s1) as [s2 [r|]]; [|discriminate]. cbn [fst] in *. assert (s2 = s) by congruence. subst.
  split; [exact O2|]. rewrite T2, T1. reflexivity.
Qed.

Lemma ordered_in_order : forall s, ordered [] s -> in_order s.
Proof.
  intros s [_ [_ H]] k l Hl. unfold contents in Hl. destruct (look k (a_data s)) as [e|] eqn:E; [|discriminate].
  cbn in Hl. injection Hl as <-. destruct (H k e E) as [A [B _]]. auto.
Qed.
Lemma reached_in_order : forall default integrate defaults F w_x w_m c s,
    proper_points (f_points c) -> 0 < f_t_s c ->
    reached default integrate defaults F w_x w_m c s -> in_order s /\ f_t_0 c <= a_t s.
Proof.
  intros default integrate defaults F w_x w_m c s P T [x_0 [u_0 [f [s_0 [ops [E [_ [_ ->]]]]]]]].
  destruct (new_ordered _ _ _ _ _ _ E) as [O0 T0].
  destruct (history_ordered default integrate defaults F w_x w_m c P T ops s_0 O0) as [O1 T1].
  split; [apply ordered_in_order; exact O1|]. rewrite <- T0. exact T1.
Qed.

(** ** The time after accepted controls *)
Section Accepted.
  Variable default : string -> nat -> string.
  Variable integrate : icall -> res (list Q * list Q).
  Variable defaults : options.
  Variable F : nat -> Q -> Q.
  Variables w_x w_m : nat -> list Q.
  Variable c : plant_config.
  Notation sample := (sample default integrate defaults F w_x c).
  Notation samples_from := (samples_from default integrate defaults F w_x c).
  Notation advance := (advance default integrate defaults F w_x w_m c).
  Notation step := (plant_step default integrate defaults F w_x w_m c).

  Lemma record_time : forall k v s, a_t (fst (record k v s)) = a_t s.
  Proof. intros. unfold record. destruct (insert_data _ _ _ _). reflexivity. Qed.
  Lemma record_time_ok : forall k v s s' r, record k v s = (s', r) -> a_t s' = a_t s.
  Proof. intros k v s s' r H. rewrite <- (record_time k v s), H. reflexivity. Qed.

  Lemma sample_time : forall t0 d s s' r, sample t0 d s = (s', Ok r) -> a_t s' = t0 + d * f_t_s c.
  Proof.
    intros t0 d s s' r H. unfold PlantModel.sample in H. cbv zeta in H.
    apply cbind_back in H. destruct H as [s1 [[] [_ H]]]. apply cbind_back in H. destruct H as [s2 [r' [_ H]]].
    apply cbind_back in H. destruct H as [s3 [x [_ H]]]. apply cbind_back in H. destruct H as [s4 [[] [E4 H]]].
    apply cbind_back in H. destruct H as [s5 [[] [E5 H]]]. apply cbind_back in H. destruct H as [s6 [[] [E6 H]]].
    unfold save_data in E6. apply cbind_back in E6. destruct E6 as [s7 [[] [E7 E6]]]. apply cbind_back in E6. destruct E6 as [s8 [[] [E8 E6]]].
    apply record_time_ok in E6, E7, E8. unfold cmodify in E4, E5.
    assert (A4 : s4 = set_a_t (t0 + d * f_t_s c) s3) by congruence. assert (A5 : s5 = set_a_x x s4) by congruence.
    assert (s' = s6) by (unfold cret in H; congruence). subst. rewrite E6, E8, E7. reflexivity.
  Qed.
  Lemma samples_time : forall t0 l o s s' r, samples_from t0 l o s = (s', Ok r) -> l <> [] -> a_t s' = t0 + last l 0 * f_t_s c.
  Proof.
    intros t0 l. induction l as [|d l IH]; intros o s s' r H N; [congruence|]. cbn [PlantModel.samples_from] in H.
    apply cbind_back in H. destruct H as [s1 [xy [E1 H]]]. destruct l as [|d' l].
    - cbn in H. assert (s1 = s') by (unfold cret in H; congruence). subst. exact (sample_time _ _ _ _ _ E1).
    - rewrite (IH _ _ _ _ H) by discriminate. reflexivity.
  Qed.
  Lemma advance_time : forall s s', advance s = (s', Ok tt) -> a_t s' = a_t s + last (f_points c) 0 * f_t_s c.
  Proof.
    intros s s' H. unfold PlantModel.advance in H. apply cbind_back in H. destruct H as [s1 [o [E1 H]]].
    destruct (f_points c) as [|d l] eqn:El.
    { cbn in E1. injection E1 as <- <-. discriminate. }
    apply samples_time in E1; [|discriminate]. destruct o as [[x y]|]; [|discriminate].
    apply cbind_back in H. destruct H as [s2 [m [E2 H]]]. apply cbind_back in H. destruct H as [s3 [[] [E3 H]]].
    unfold save_measurement in E3. apply cbind_back in E3. destruct E3 as [s4 [[] [E4 E3]]]. apply record_time_ok in E3, E4.
    pose proof (measure_same w_m c x y s1) as B. rewrite E2 in B. destruct B as [B _]. cbn [fst] in B.
    unfold cmodify in H. assert (s' = set_a_measurement (fst m) s3) by congruence. subst. cbn [a_t set_a_measurement]. congruence.
  Qed.
  Lemma step_time : forall op s s', step op s = (s', Ok tt) -> a_t s' = a_t s + last (f_points c) 0 * f_t_s c.
  Proof.
    intros [u|f] s s' H; cbn [plant_step] in H.
    - unfold set_control, cguard, cmodify, cbind in H. destruct (negb _); [discriminate|]. exact (advance_time _ _ H).
    - unfold set_control_function, cmodify, cbind in H. exact (advance_time _ _ H).
  Qed.
  Lemma history_time : forall ops s s', run_all step ops s = (s', Ok tt) ->
      a_t s' == a_t s + q_of_nat (length ops) * (last (f_points c) 0 * f_t_s c).
  Proof.
    induction ops as [|op ops IH]; intros s s' H; cbn [run_all] in H.
    - injection H as <-. change (q_of_nat (@length plant_op [])) with 0. ring.
    - destruct (step op s) as [s1 [[]|e]] eqn:E; [|discriminate]. apply IH in H. rewrite H, (step_time _ _ _ E).
      cbn [length]. unfold q_of_nat. rewrite Nat2Z.inj_succ, <- Z.add_1_r, inject_Z_plus. change (inject_Z 1) with 1. ring.
  Qed.

  (** ** Refused calls *)
  Lemma wrong_size : forall u s, length u <> length (m_u_par (f_model c)) ->
      step (SetControl u) s = (s, Raise ValueError).
  Proof.
    intros u s H. cbn. unfold set_control, cguard, cbind. destruct (Nat.eqb_spec (length u) (length (m_u_par (f_model c)))); [contradiction|reflexivity].
  Qed.
  Lemma zero_step : f_t_s c == 0 -> forall op s, exists e, snd (step op s) = Raise e.
  Proof.
    intros Z op s.
    assert (Sm : forall d s0 t0, a_t s0 = t0 -> exists e, snd (sample t0 d s0) = Raise e).
    { intros d s0 t0 <-. unfold PlantModel.sample. cbv zeta. fold hold.
      match goal with |- context [cbind hold ?k s0] => destruct (cbind_cases _ _ _ hold k s0) as [[s1 [[] [E1 ->]]]|[s1 [e [E1 ->]]]] end; [|eexists; reflexivity].
      pose proof (hold_same s0) as B. rewrite E1 in B. destruct B as [B _]. cbn [fst] in B.
      unfold PlantModel.simulate_to, simulate. cbn [length]. change ((1 <? 1)%nat) with false. cbn [andb].
      unfold cbind at 1. destruct (existsb _ _); [eexists; reflexivity|]. cbn [simulate_loop].
      destruct (dget Nat.eqb 0%nat (theta_sim _ _)); [|eexists; reflexivity].
      destruct (dget Nat.eqb 0%nat (u_sim _ _)); [|eexists; reflexivity].
      unfold dae_simulate. rewrite B.
      assert (X : Qeq_bool (a_t s0 + d * f_t_s c) (a_t s0) = true) by (apply Qeq_bool_iff; rewrite Z; ring).
      rewrite X. eexists; reflexivity. }
    assert (Ad : forall s0, exists e, snd (advance s0) = Raise e).
    { intros s0. unfold PlantModel.advance. destruct (f_points c) as [|d l]; [eexists; reflexivity|].
      cbn [PlantModel.samples_from]. destruct (Sm d s0 (a_t s0) eq_refl) as [e E].
      unfold cbind at 1 2. destruct (sample (a_t s0) d s0) as [s1 [r|e1]]; [discriminate|]. eexists; reflexivity. }
    destruct op as [u|f]; cbn [plant_step].
    - unfold set_control, cguard, cmodify, cbind. destruct (negb _); [eexists; reflexivity|]. apply Ad.
    - unfold set_control_function, cmodify, cbind. apply Ad.
  Qed.
  Lemma no_points : f_points c = [] -> forall op s, snd (step op s) = Raise UnboundLocalError \/ snd (step op s) = Raise ValueError.
  Proof.
    intros N [u|f] s; cbn [plant_step].
    - unfold set_control, cguard, cmodify, cbind. destruct (negb _); [right; reflexivity|]. left. unfold PlantModel.advance. rewrite N. reflexivity.
    - left. unfold set_control_function, cmodify, cbind, PlantModel.advance. rewrite N. reflexivity.
  Qed.
  Lemma function_wins : forall f u v s, a_function s = Some f -> (forall t, exists w, f t = Ok w) ->
      f_points c <> [] -> length u = length (m_u_par (f_model c)) -> length v = length (m_u_par (f_model c)) ->
      step (SetControl u) s = step (SetControl v) s.
  Proof.
    intros f u v s Ef Hf N Lu Lv.
    cbn [plant_step]. unfold set_control, cguard, cmodify, cbind. rewrite Lu, Lv, Nat.eqb_refl. cbn [negb].
    unfold PlantModel.advance. cbn [a_t set_a_u]. destruct (f_points c) as [|d l]; [congruence|]. cbn [PlantModel.samples_from].
    assert (X : sample (a_t s) d (set_a_u u s) = sample (a_t s) d (set_a_u v s)).
    { unfold PlantModel.sample. unfold cbind at 1 7. cbn [a_function set_a_u a_t]. rewrite Ef. destruct (Hf (a_t s)) as [w ->]. reflexivity. }
    unfold cbind at 1 2 4 5. rewrite X. reflexivity.
  Qed.
End Accepted.

Lemma count_last : forall n, (0 < n)%nat -> last (sampling_points (Count n)) 0 == 1.
Proof.
  intros n Hn. unfold sampling_points. destruct n as [|n]; [lia|]. rewrite seq_S, map_app. cbn [map]. rewrite last_last.
  rewrite Nat.add_0_l, Nat.add_1_r. unfold q_of_nat. unfold Qdiv. rewrite Qmult_1_l.
  rewrite Qmult_comm. apply Qmult_inv_r. intros X. unfold Qeq in X. cbn in X. lia.
Qed.
Lemma count_proper : forall n, (0 < n)%nat -> proper_points (sampling_points (Count n)).
Proof.
  intros n Hn. unfold sampling_points. assert (P : 0 < 1 / q_of_nat n).
  { unfold Qdiv. rewrite Qmult_1_l. apply Qinv_lt_0_compat. unfold q_of_nat, Qlt. cbn. lia. }
  split; [destruct n; [lia|discriminate]|]. split.
  - assert (G : forall b k a, 0 < b -> StronglySorted Qlt (map (fun i => b * q_of_nat (i + 1)) (seq a k))); [|apply G; exact P].
    clear. intros b k. induction k as [|k IH]; intros a P; cbn; constructor.
    + apply IH, P.
    + apply Forall_forall. intros q Hq. apply in_map_iff in Hq. destruct Hq as [i [<- Hi]]. apply in_seq in Hi.
      apply Qmult_lt_l; [exact P|]. unfold q_of_nat. rewrite <- Zlt_Qlt. lia.
  - apply Forall_forall. intros q Hq. apply in_map_iff in Hq. destruct Hq as [i [<- Hi]].
    apply Qmult_lt_0_compat; [exact P|]. unfold q_of_nat, Qlt. cbn. lia.
Qed.

(** ** Cases *)
Lemma half_advanced :
  exists c s s' e, reached (fun _ _ => ""%string) euler [] (fun _ q => q) (fun _ => []) (fun _ => []) c s /\
    plant_step (fun _ _ => ""%string) euler [] (fun _ q => q) (fun _ => []) (fun _ => []) c (SetControl [5]) s = (s', Raise e) /\
    f_points c = [1 # 2; 1] /\ a_t s = 0 /\ a_t s' == 1 /\ a_x s' = [8] /\ stored "x" s' = stored "x" s ++ [(a_t s', [8])].
Proof.
  exists (tank_config 2 [1 # 2; 1] false).
  destruct (new_plant (fun _ _ => ""%string) (tank_config 2 [1 # 2; 1] false) [3] None None) as [s|] eqn:E; [|vm_compute in E; discriminate].
  exists s.
  destruct (plant_step (fun _ _ => ""%string) euler [] (fun _ q => q) (fun _ => []) (fun _ => []) (tank_config 2 [1 # 2; 1] false) (SetControl [5]) s)
    as [s' [|e]] eqn:E'; vm_compute in E; injection E as E; subst s; vm_compute in E'; [discriminate|].
  exists s', e. split; [|split; [vm_compute; reflexivity|]].
  - eexists [3], None, None, _, []. split; [vm_compute; reflexivity|]. split; [reflexivity|]. split; [discriminate|reflexivity].
  - injection E' as E1 E2. subst. repeat split.
Qed.
Lemma labels :
  exists c s e, new_plant (fun k n => k) c [3] None None = Ok s /\ f_c c = eye 2 /\
    look "meas" (a_data s) = Some e /\ length (e_names e) = 1%nat /\ mrows (e_values e) = 2%nat.
Proof.
  exists (mkConfig tank_model 0 1 [2] (eye 2) [1] false [] None [] ["level"]%string ["flow"]%string ["in"]%string).
  eexists. eexists. split; [vm_compute; reflexivity|]. split; [reflexivity|]. split; [vm_compute; reflexivity|]. split; reflexivity.
Qed.
Lemma two_samples :
  let c := tank_config 2 [1 # 2; 1] false in
  let step := plant_step (fun _ _ => ""%string) euler [] (fun _ q => q) (fun _ => []) (fun _ => []) c in
  fitting c /\ sized_integrator euler (length (m_y (f_model c))) /\ proper_points (f_points c) /\
  exists s s', new_plant (fun _ _ => ""%string) c [3] None None = Ok s /\
    run_all step [SetControl [1]; SetFunction (fun t => Ok [Qred (t - 3)])] s = (s', Ok tt) /\
    map fst (stored "x" s') = [0; 0 + (1 # 2) * 2; 0 + 1 * 2; 0 + 1 * 2 + (1 # 2) * 2; 0 + 1 * 2 + 1 * 2] /\
    map snd (stored "x" s') = [[3]; [4]; [5]; [4]; [4]] /\ map snd (stored "u" s') = [[0]; [1]; [1]; [-1]; [0]] /\
    map (map Qred) (map snd (stored "meas" s')) = [[3; 5]; [5; 15]; [4; 12]].
Proof.
  cbv zeta. split; [|split; [|split]].
  - split; [reflexivity|]. split; [repeat constructor|]. split; [reflexivity|].
    intros e s [<-|[]] [<-|[]]. right. simpl. tauto.
  - intros k x z H. unfold euler in H. destruct (dget _ _ _) as [[tf|]|]; try discriminate.
    destruct (dget _ _ _) as [[t0|]|]; try discriminate. destruct (ic_x0 k) as [|a [|]]; try discriminate.
    destruct (ic_p k) as [|b [|]]; try discriminate. cbv zeta in H. destruct (Qle_bool _ _); [|discriminate].
    split; [assert (x = [Qred (a + (tf - t0) * b)]) by congruence; subst; reflexivity|].
    assert (z = [Qred (2 * Qred (a + (tf - t0) * b))]) by congruence. subst. reflexivity.
  - split; [discriminate|]. split; repeat constructor.
  - do 2 eexists. split; [vm_compute; reflexivity|]. split; [vm_compute; reflexivity|]. split; [vm_compute; reflexivity|].
    split; [vm_compute; reflexivity|]. split; vm_compute; reflexivity.
Qed.

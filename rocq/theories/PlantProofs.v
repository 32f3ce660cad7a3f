(** Proofs about simulated plants. *)
From Coq Require Import String Sorted Lqa.
From Verif Require Import Base BaseProofs UtilModel ExprModel SysModel SimModel SimProofs DataModel DataSpec DataProofs OcpModel DiscModel PlantModel PlantSpec.
Local Open Scope list_scope.
Local Open Scope cmd_scope.
Local Open Scope Q_scope.

(** ** One record *)

Lemma record_cases : forall k v s, consistent (a_data s) -> sized (a_data s) ->
    (exists e e', look k (a_data s) = Some e /\ record k v s = (set_a_data (put k e' (a_data s)) s, Ok tt) /\
       e_size e' = e_size e /\ points e' = points e ++ [(a_t s, v)] /\
       entry_consistent e' /\ e_values e' <> null /\
       (e_values e <> null -> mrows (e_values e') = mrows (e_values e)) /\
       (e_values e = null -> mrows (e_values e') = length v)) \/
    (exists x, record k v s = (s, Raise x) /\ forall e, look k (a_data s) = Some e -> ~ fits (e_values e) (column v)).
Proof.
  intros k v s C S. pose proof (insert_iff k (TimeNum (a_t s)) (column v) (a_data s) S) as [I1 I2].
  pose proof (insert_consistent k (TimeNum (a_t s)) (column v) (a_data s) C) as I3.
  unfold record. destruct (insert_data k (TimeNum (a_t s)) (column v) (a_data s)) as [d [[]|x]] eqn:E.
  - left. pose proof (insert_ok _ _ _ _ _ S C E) as [e [e' [E1 [E2 [E3 [E4 [E5 [E6 [E7 E8]]]]]]]]].
    exists e, e'. subst d. cbn [fst] in I3.
    assert (R : rectangular (column v)) by (constructor; [reflexivity|constructor]).
    specialize (I3 R). assert (Ce : entry_consistent e') by (apply (proj2 I3 k); apply look_put_same).
    split; [exact E1|]. split; [reflexivity|]. split; [apply E3|]. split; [exact E6|]. split; [exact Ce|].
    split; [|split; [exact E7|exact E8]].
    intros N. destruct Ce as [Ce _]. rewrite N in Ce. cbn in Ce. destruct (e_time e') eqn:Et; [|discriminate Ce].
    unfold points in E6 at 1. rewrite Et in E6. cbn in E6. symmetry in E6. apply app_eq_nil in E6. destruct E6; discriminate.
  - right. exists x. cbn [fst] in I2. specialize (I2 x eq_refl). subst d. split; [destruct s; reflexivity|].
    intros e He Hf. assert (X : snd (a_data s, @Raise unit x) = Ok tt); [|discriminate X].
    apply I1. split; [discriminate|]. split; [reflexivity|]. exists e. auto.
Qed.

(** ** Keeping records *)

Definition kept (c : plant_config) (s : plant) : Prop :=
  dkeys (a_data s) = entries /\ consistent (a_data s) /\ sized (a_data s) /\
  forall k e, look k (a_data s) = Some e -> e_values e = null \/ mrows (e_values e) = height c k.

Lemma record_kept : forall c k v s, kept c s -> In k entries -> length v = height c k ->
    exists s', record k v s = (s', Ok tt) /\ kept c s' /\
      point_of s' = point_of s /\ a_measurement s' = a_measurement s /\ a_function s' = a_function s /\
      stored k s' = stored k s ++ [(a_t s, v)] /\ forall k', k' <> k -> stored k' s' = stored k' s.
Proof.
  intros c k v s [K [C [S H]]] I L.
  destruct (record_cases k v s C S) as [[e [e' [E1 [E2 [E3 [E4 [E5 [E6 [E7 E8]]]]]]]]]|[x [_ N]]].
  - eexists. split; [exact E2|].
    split.
    { split; [cbn [a_data set_a_data]; rewrite (keys_put_in _ _ _ _ E1); exact K|]. split; [apply consistent_put; assumption|].
      split; [eapply sized_put; eauto|].
      intros k' e0 He. cbn [a_data set_a_data] in He. rewrite look_put in He. destruct (String.eqb_spec k' k) as [->|Nk].
      - injection He as <-. right. destruct (H k e E1) as [Hn|Hn].
        + rewrite (E8 Hn). exact L.
        + destruct (is_null (e_values e)) eqn:En.
          * apply null_cases in En. rewrite (E8 En). exact L.
          * rewrite E7; [exact Hn|]. intros X. rewrite X in En. discriminate.
      - exact (H _ _ He). }
    split; [reflexivity|]. split; [reflexivity|]. split; [reflexivity|].
    split.
    { unfold stored, contents. cbn [a_data set_a_data]. rewrite look_put_same, E1. cbn. exact E4. }
    intros k' Nk. unfold stored, contents. cbn [a_data set_a_data]. rewrite look_put_other by exact Nk. reflexivity.
  - exfalso. assert (Il : look k (a_data s) <> None) by (apply look_In; rewrite K; exact I).
    destruct (look k (a_data s)) as [e|] eqn:El; [|congruence]. apply (N e eq_refl).
    destruct (H k e El) as [Hn|Hn]; [left; exact Hn|right; right; rewrite Hn, <- L; reflexivity].
Qed.

(** When a record is stored, its size was right. *)
Lemma cbind_run : forall (S A B : Type) (m : cmd S A) (k : A -> cmd S B) s s' a,
    m s = (s', Ok a) -> cbind m k s = k a s'.
Proof. intros S A B m k s s' a H. unfold cbind. rewrite H. reflexivity. Qed.
Lemma cbind_stop : forall (S A B : Type) (m : cmd S A) (k : A -> cmd S B) s s' e,
    m s = (s', Raise e) -> cbind m k s = (s', Raise e).
Proof. intros S A B m k s s' a H. unfold cbind. rewrite H. reflexivity. Qed.
Lemma cbind_back : forall (S A B : Type) (m : cmd S A) (k : A -> cmd S B) s s2 b,
    cbind m k s = (s2, Ok b) -> exists s1 a, m s = (s1, Ok a) /\ k a s1 = (s2, Ok b).
Proof.
  intros S A B m k s s2 b H. unfold cbind in H. destruct (m s) as [s1 [a|e]]; [|discriminate].
  exists s1, a. auto.
Qed.

Lemma key_x : In "x"%string entries. Proof. simpl; tauto. Qed.
Lemma key_y : In "y"%string entries. Proof. simpl; tauto. Qed.
Lemma key_u : In "u"%string entries. Proof. simpl; tauto. Qed.
Lemma key_m : In "meas"%string entries. Proof. simpl; tauto. Qed.
Lemma key_w : In "meas_wo_noise"%string entries. Proof. simpl; tauto. Qed.

Lemma save_data_kept : forall c x y u s, kept c s ->
    length x = height c "x" -> length y = height c "y" -> length u = height c "u" ->
    exists s', save_data x y u s = (s', Ok tt) /\ kept c s' /\
      point_of s' = point_of s /\ a_measurement s' = a_measurement s /\ a_function s' = a_function s /\
      stored "x" s' = stored "x" s ++ [(a_t s, x)] /\ stored "y" s' = stored "y" s ++ [(a_t s, y)] /\
      stored "u" s' = stored "u" s ++ [(a_t s, u)] /\
      stored "meas" s' = stored "meas" s /\ stored "meas_wo_noise" s' = stored "meas_wo_noise" s.
Proof.
  intros c x y u s K Lx Ly Lu. unfold save_data.
  destruct (record_kept c "x" x s K key_x Lx) as [s1 [E1 [K1 [P1 [M1 [F1 [A1 B1]]]]]]].
  destruct (record_kept c "y" y s1 K1 key_y Ly) as [s2 [E2 [K2 [P2 [M2 [F2 [A2 B2]]]]]]].
  destruct (record_kept c "u" u s2 K2 key_u Lu) as [s3 [E3 [K3 [P3 [M3 [F3 [A3 B3]]]]]]].
  assert (T1 : a_t s1 = a_t s) by (unfold point_of in P1; congruence).
  assert (T2 : a_t s2 = a_t s) by (unfold point_of in P2; congruence).
  exists s3. rewrite (cbind_run _ _ _ _ _ _ _ _ E1), (cbind_run _ _ _ _ _ _ _ _ E2), E3.
  split; [reflexivity|]. split; [exact K3|]. split; [congruence|]. split; [congruence|]. split; [congruence|].
  rewrite A3, T2. rewrite !B3 by discriminate. rewrite A2, T1, !B2 by discriminate. rewrite A1, !B1 by discriminate.
  repeat split.
Qed.

Lemma save_measurement_kept : forall c m s, kept c s ->
    length (fst m) = length (f_c c) -> length (snd m) = length (f_c c) ->
    exists s', save_measurement m s = (s', Ok tt) /\ kept c s' /\
      point_of s' = point_of s /\ a_measurement s' = a_measurement s /\ a_function s' = a_function s /\
      stored "meas" s' = stored "meas" s ++ [(a_t s, fst m)] /\
      stored "meas_wo_noise" s' = stored "meas_wo_noise" s ++ [(a_t s, snd m)] /\
      stored "x" s' = stored "x" s /\ stored "y" s' = stored "y" s /\ stored "u" s' = stored "u" s.
Proof.
  intros c m s K L1 L2. unfold save_measurement.
  destruct (record_kept c "meas" (fst m) s K key_m L1) as [s1 [E1 [K1 [P1 [M1 [F1 [A1 B1]]]]]]].
  destruct (record_kept c "meas_wo_noise" (snd m) s1 K1 key_w L2) as [s2 [E2 [K2 [P2 [M2 [F2 [A2 B2]]]]]]].
  assert (T1 : a_t s1 = a_t s) by (unfold point_of in P1; congruence).
  exists s2. rewrite (cbind_run _ _ _ _ _ _ _ _ E1), E2.
  split; [reflexivity|]. split; [exact K2|]. split; [congruence|]. split; [congruence|]. split; [congruence|].
  rewrite A2, T1, !B2 by discriminate. rewrite A1, !B1 by discriminate. repeat split.
Qed.

(** ** One simulation *)

Lemma last_column_app : forall r l v, last_column (mkMat r (l ++ [v])) = Ok v.
Proof. intros. unfold last_column. cbn [mcols]. rewrite rev_app_distr. reflexivity. Qed.

Lemma contents_last : forall k d pre t v e, consistent d -> look k d = Some e -> points e = pre ++ [(t, v)] ->
    last_column (e_values e) = Ok v.
Proof.
  intros k d pre t v e C He Hp. destruct (proj2 C k e He) as [L _]. unfold points in Hp.
  assert (X : mcols (e_values e) = map snd pre ++ [v]).
  { transitivity (map snd (combine (e_time e) (mcols (e_values e)))).
    - symmetry. clear Hp. revert L. generalize (e_time e). induction (mcols (e_values e)) as [|a l IH]; intros [|b ts] L; simpl in *; try discriminate; [reflexivity|].
      rewrite IH by lia. reflexivity.
    - rewrite Hp, map_app. reflexivity. }
  unfold last_column. rewrite X, rev_app_distr. reflexivity.
Qed.

Lemma existsb_closed : forall m,
    existsb (fun s => negb (memb sym_eqb s (all_sym m))) (flat_map symbols (m_u_expr m)) = false <-> closed_control m.
Proof.
  intros m. split.
  - intros H e s He Hs. destruct (memb sym_eqb s (all_sym m)) eqn:Em.
    + apply memb_nat in Em. unfold all_sym in Em. destruct Em as [<-|Em]; [left; reflexivity|right; exact Em].
    + exfalso. assert (X : existsb (fun s => negb (memb sym_eqb s (all_sym m))) (flat_map symbols (m_u_expr m)) = true); [|congruence].
      apply existsb_exists. exists s. split; [apply in_flat_map; exists e; auto|]. rewrite Em. reflexivity.
  - intros H. destruct (existsb _ _) eqn:E; [|reflexivity]. apply existsb_exists in E. destruct E as [s [Hs E]].
    apply in_flat_map in Hs. destruct Hs as [e [He Hs]]. exfalso.
    assert (X : memb sym_eqb s (all_sym m) = true); [|rewrite X in E; discriminate].
    apply memb_nat. unfold all_sym. destruct (H e s He Hs) as [->|X]; [left; reflexivity|right; exact X].
Qed.

Section Plant.
  Variable default : string -> nat -> string.
  Variable integrate : icall -> res (list Q * list Q).
  Variable defaults : options.
  Variable F : nat -> Q -> Q.
  Variables w_x w_m : nat -> list Q.
  Variable c : plant_config.
  Notation simulate_to := (simulate_to default integrate defaults F c).
  Notation flow := (flow integrate defaults F c).
  Notation sampled := (sampled integrate defaults F w_x c).
  Notation advanced := (advanced integrate defaults F w_x w_m c).
  Notation step := (plant_step default integrate defaults F w_x w_m c).

  Lemma simulate_to_sound : forall x t t' u x' y' v,
      sized_integrator integrate (length (m_y (f_model c))) ->
      simulate_to x t t' u = Ok (x', y', v) ->
      flow x t t' u x' y' v.
  Proof.
    intros x t t' u x' y' v Si H. unfold PlantModel.simulate_to, simulate in H. cbn [length] in H.
    change ((1 <? 1)%nat) with false in H. cbn [andb] in H.
    destruct (existsb _ _) eqn:Ec; [discriminate|].
    cbn [simulate_loop] in H. cbn [u_sim seq map dget] in H. rewrite Nat.eqb_refl in H.
    destruct (dget Nat.eqb 0%nat (theta_sim (f_theta c) 1)) as [th|] eqn:Eth; [|discriminate].
    destruct (dae_simulate integrate defaults _ _ _ _ _ _ _ _) as [[xf zf]|e] eqn:Ed; [|discriminate].
    cbn [s_x s_y s_u] in H.
    assert (Lx : length xf = length x /\ length zf = length (m_y (f_model c))).
    { unfold dae_simulate in Ed. destruct (Qeq_bool t' t); [discriminate|].
      destruct (match d_tau _ with Some tau => _ | None => _ end); [discriminate|].
      destruct (integrator_options _ _). destruct (select_plugin _ _) as [pl|]; [|discriminate].
      apply Si in Ed. exact Ed. }
    destruct (result_of_points default (f_model c) t [t']
      (Some (f_x_names c), Some (f_y_names c), Some (f_u_names c))
      (mkSim [(t, x); (t', xf)] [(t', zf)] [(t', f_u F (f_model c) t' xf zf (f_p c) th u)]))
      as [r [Er [W [Cx [Cy [Cu _]]]]]].
    { split; [discriminate|]. exists (length x). repeat constructor. apply Lx. }
    { split; [discriminate|]. eexists. repeat constructor. }
    { split; [discriminate|]. eexists. repeat constructor. }
    rewrite Er in H. unfold contents in Cx, Cy, Cu. cbn [s_x s_y s_u] in Cx, Cy, Cu.
    destruct (look "x" (r_data r)) as [ex|] eqn:Ex; [|discriminate].
    destruct (look "y" (r_data r)) as [ey|] eqn:Ey; [|discriminate].
    destruct (look "u" (r_data r)) as [eu|] eqn:Eu; [|discriminate].
    cbn [option_map] in Cx, Cy, Cu. injection Cx as Cx. injection Cy as Cy. injection Cu as Cu.
    unfold final_condition in H. rewrite Ex, Ey, Eu in H.
    rewrite (contents_last _ _ [(t, x)] t' xf _ (proj1 W) Ex Cx) in H.
    rewrite (contents_last _ _ [] t' zf _ (proj1 W) Ey Cy) in H.
    rewrite (contents_last _ _ [] t' _ _ (proj1 W) Eu Cu) in H.
    assert (H' : xf = x' /\ zf = y' /\ f_u F (f_model c) t' xf zf (f_p c) th u = v) by (split; [|split]; congruence).
    destruct H' as [<- [<- <-]]. exists th. split; [|split; [exact Ed|reflexivity]].
    unfold theta_values. unfold theta_sim in Eth. destruct (f_theta c) as [d|]; [exact Eth|].
    cbn in Eth. injection Eth as <-. reflexivity.
  Qed.

  Lemma simulate_to_complete : forall x t t' u x' y' v,
      sized_integrator integrate (length (m_y (f_model c))) -> closed_control (f_model c) ->
      flow x t t' u x' y' v ->
      simulate_to x t t' u = Ok (x', y', v) /\
      length x' = length x /\ length y' = length (m_y (f_model c)) /\ length v = length (m_u_expr (f_model c)).
  Proof.
    intros x t t' u x' y' v Si Cl [th [Hth [Ed ->]]].
    assert (Lx : length x' = length x /\ length y' = length (m_y (f_model c))).
    { unfold dae_simulate in Ed. destruct (Qeq_bool t' t); [discriminate|].
      destruct (match d_tau _ with Some tau => _ | None => _ end); [discriminate|].
      destruct (integrator_options _ _). destruct (select_plugin _ _) as [pl|]; [|discriminate].
      apply Si in Ed. exact Ed. }
    split.
    2:{ split; [apply Lx|]. split; [apply Lx|]. unfold f_u. rewrite map_length. reflexivity. }
    unfold PlantModel.simulate_to, simulate. cbn [length].
    change ((1 <? 1)%nat) with false. cbn [andb].
    rewrite (proj2 (existsb_closed (f_model c)) Cl).
    cbn [simulate_loop]. cbn [u_sim seq map dget]. rewrite Nat.eqb_refl.
    assert (Eth : dget Nat.eqb 0%nat (theta_sim (f_theta c) 1) = Some th).
    { unfold theta_values in Hth. unfold theta_sim. destruct (f_theta c); [exact Hth|]. subst th. reflexivity. }
    rewrite Eth, Ed. cbn [s_x s_y s_u].
    destruct (result_of_points default (f_model c) t [t']
      (Some (f_x_names c), Some (f_y_names c), Some (f_u_names c))
      (mkSim [(t, x); (t', x')] [(t', y')] [(t', f_u F (f_model c) t' x' y' (f_p c) th u)]))
      as [r [Er [W [Cx [Cy [Cu _]]]]]].
    { split; [discriminate|]. exists (length x). repeat constructor. apply Lx. }
    { split; [discriminate|]. eexists. repeat constructor. }
    { split; [discriminate|]. eexists. repeat constructor. }
    rewrite Er. unfold contents in Cx, Cy, Cu. cbn [s_x s_y s_u] in Cx, Cy, Cu.
    destruct (look "x" (r_data r)) as [ex|] eqn:Ex; [|discriminate].
    destruct (look "y" (r_data r)) as [ey|] eqn:Ey; [|discriminate].
    destruct (look "u" (r_data r)) as [eu|] eqn:Eu; [|discriminate].
    cbn [option_map] in Cx, Cy, Cu. injection Cx as Cx. injection Cy as Cy. injection Cu as Cu.
    unfold final_condition. rewrite Ex, Ey, Eu.
    rewrite (contents_last _ _ [(t, x)] t' x' _ (proj1 W) Ex Cx).
    rewrite (contents_last _ _ [] t' y' _ (proj1 W) Ey Cy).
    rewrite (contents_last _ _ [] t' _ _ (proj1 W) Eu Cu). reflexivity.
  Qed.

  Hypothesis Si : sized_integrator integrate (length (m_y (f_model c))).
  Hypothesis Fit : fitting c.
  Hypothesis Sn : f_noise c = true -> sized_noise w_x w_m c.
  Notation n_x := (length (m_x (f_model c))).
  Notation sample := (sample default integrate defaults F w_x c).
  Notation samples_from := (samples_from default integrate defaults F w_x c).
  Notation advance := (advance default integrate defaults F w_x w_m c).

  Definition hold : cmd plant unit := fun s =>
    match a_function s with
    | None => (s, Ok tt)
    | Some f => match f (a_t s) with Raise e => (s, Raise e) | Ok u => (set_a_u u s, Ok tt) end
    end.
  Lemma hold_spec : forall s u', held (a_function s) (a_t s) (a_u s) u' <-> hold s = (set_a_u u' s, Ok tt).
  Proof.
    intros s u'. unfold held, hold. destruct (a_function s) as [f|] eqn:Ef.
    - split; intros H; [rewrite H; reflexivity|]. destruct (f (a_t s)) as [u|]; [|discriminate].
      assert (u = u') by (injection H; auto). subst. reflexivity.
    - split; intros H; [subst; destruct s; reflexivity|]. destruct s as [a b d u f' n ds]. cbn in *. injection H. auto.
  Qed.
  Lemma hold_inv : forall s s1, hold s = (s1, Ok tt) -> exists u', s1 = set_a_u u' s /\ held (a_function s) (a_t s) (a_u s) u'.
  Proof.
    intros s s1 H. unfold hold in H. unfold held. destruct (a_function s) as [f|] eqn:Ef.
    - destruct (f (a_t s)) as [u|] eqn:E; [|discriminate]. exists u. split; [congruence|reflexivity].
    - exists (a_u s). split; [injection H as <-; destruct s; reflexivity|reflexivity].
  Qed.

  Lemma dm_add_plus : forall a b, length a = length b -> dm_add a b = Ok (plus a b).
  Proof. intros a b L. unfold dm_add. rewrite L, Nat.eqb_refl. reflexivity. Qed.
  Lemma plus_length : forall a b, length a = length b -> length (plus a b) = length a.
  Proof. intros a b L. unfold plus. rewrite map_length, combine_length, L. lia. Qed.

  Lemma process_noise_spec : forall x s, length x = n_x ->
      exists x' n', process_noise w_x c x s = (set_a_draws n' s, Ok x') /\
        disturbed (f_noise c) w_x (a_draws s) x x' n' /\ length x' = n_x.
  Proof.
    intros x s L. unfold process_noise, disturbed. destruct (f_noise c) eqn:En.
    - destruct (Sn eq_refl (a_draws s)) as [Lw _]. rewrite dm_add_plus by congruence.
      do 2 eexists. split; [reflexivity|]. split; [split; reflexivity|]. rewrite plus_length; congruence.
    - exists x, (a_draws s). split; [destruct s; reflexivity|]. auto.
  Qed.
  Lemma disturbed_unique : forall b w n v v1 n1 v2 n2,
      disturbed b w n v v1 n1 -> disturbed b w n v v2 n2 -> v1 = v2 /\ n1 = n2.
  Proof. intros [] w n v v1 n1 v2 n2 [-> ->] [-> ->]; auto. Qed.

  Lemma sample_complete : forall t0 d s u' x' y' v x'' n',
      kept c s -> length (a_x s) = n_x ->
      held (a_function s) (a_t s) (a_u s) u' ->
      flow (a_x s) (a_t s) (t0 + d * f_t_s c) u' x' y' v ->
      disturbed (f_noise c) w_x (a_draws s) x' x'' n' ->
      exists s', sample t0 d s = (s', Ok (x'', y')) /\ kept c s' /\ length x'' = n_x /\ length y' = length (m_y (f_model c)) /\
        point_of s' = (t0 + d * f_t_s c, x'', u', n') /\
        a_measurement s' = a_measurement s /\ a_function s' = a_function s /\
        stored "x" s' = stored "x" s ++ [(t0 + d * f_t_s c, x'')] /\
        stored "y" s' = stored "y" s ++ [(t0 + d * f_t_s c, y')] /\
        stored "u" s' = stored "u" s ++ [(t0 + d * f_t_s c, v)] /\
        stored "meas" s' = stored "meas" s /\ stored "meas_wo_noise" s' = stored "meas_wo_noise" s.
  Proof.
    intros t0 d s u' x' y' v x'' n' K L Hh Hf Hd. unfold PlantModel.sample.
    fold hold. rewrite (cbind_run _ _ _ hold _ _ _ _ (proj1 (hold_spec s u') Hh)).
    destruct (simulate_to_complete _ _ _ _ _ _ _ Si (proj2 (proj2 (proj2 Fit))) Hf) as [E [L1 [L2 L3]]].
    destruct (process_noise_spec x' (set_a_u u' s)) as [x2 [n2 [E2 [D2 L4]]]]; [congruence|].
    destruct (disturbed_unique _ _ _ _ _ _ _ _ Hd D2) as [<- <-].
    set (s1 := set_a_u u' s) in *.
    assert (E1 : (fun s0 : plant => (s0, simulate_to (a_x s0) (a_t s0) (t0 + d * f_t_s c) (a_u s0))) s1 = (s1, Ok (x', y', v))).
    { cbn beta. unfold s1. cbn [a_x a_t a_u set_a_u]. rewrite E. reflexivity. }
    rewrite (cbind_run _ _ _ _ _ _ _ _ E1). cbn [fst snd]. rewrite (cbind_run _ _ _ _ _ _ _ _ E2).
    unfold cmodify at 1. rewrite (cbind_run _ _ _ _ _ _ (set_a_t (t0 + d * f_t_s c) (set_a_draws n' s1)) tt) by reflexivity.
    unfold cmodify at 1. rewrite (cbind_run _ _ _ _ _ _ (set_a_x x'' (set_a_t (t0 + d * f_t_s c) (set_a_draws n' s1))) tt) by reflexivity.
    destruct (save_data_kept c x'' y' v (set_a_x x'' (set_a_t (t0 + d * f_t_s c) (set_a_draws n' s1))))
      as [s' [E3 [K3 [P3 [M3 [F3 [A1 [A2 [A3 [A4 A5]]]]]]]]]]; [exact K|exact L4|exact L2|exact L3|].
    exists s'. rewrite (cbind_run _ _ _ _ _ _ _ _ E3). split; [reflexivity|]. split; [exact K3|].
    split; [exact L4|]. split; [exact L2|]. split; [exact P3|]. split; [exact M3|]. split; [exact F3|].
    split; [exact A1|]. split; [exact A2|]. split; [exact A3|]. split; [exact A4|exact A5].
  Qed.

  Lemma sample_sound : forall t0 d s s' r,
      length (a_x s) = n_x -> sample t0 d s = (s', Ok r) ->
      exists u' x' v n', held (a_function s) (a_t s) (a_u s) u' /\
        flow (a_x s) (a_t s) (t0 + d * f_t_s c) u' x' (snd r) v /\
        disturbed (f_noise c) w_x (a_draws s) x' (fst r) n'.
  Proof.
    intros t0 d s s' r L H. unfold PlantModel.sample in H. fold hold in H.
    apply cbind_back in H. destruct H as [s1 [[] [Eh H]]].
    destruct (hold_inv _ _ Eh) as [u' [-> Hh]].
    apply cbind_back in H. destruct H as [s2 [[[x' y'] v] [E1 H]]].
    assert (E1' : s2 = set_a_u u' s /\ simulate_to (a_x s) (a_t s) (t0 + d * f_t_s c) u' = Ok (x', y', v)).
    { cbn [a_x a_t a_u set_a_u] in E1. split; congruence. }
    destruct E1' as [-> E1']. clear E1. cbn [fst snd] in H.
    pose proof (simulate_to_sound _ _ _ _ _ _ _ Si E1') as Hf.
    destruct (simulate_to_complete _ _ _ _ _ _ _ Si (proj2 (proj2 (proj2 Fit))) Hf) as [_ [L1 _]].
    destruct (process_noise_spec x' (set_a_u u' s)) as [x2 [n2 [E2 [D2 _]]]]; [congruence|].
    rewrite (cbind_run _ _ _ _ _ _ _ _ E2) in H.
    apply cbind_back in H. destruct H as [s3 [[] [_ H]]]. apply cbind_back in H. destruct H as [s4 [[] [_ H]]].
    apply cbind_back in H. destruct H as [s5 [[] [_ H]]].
    assert (r = (x2, y')) by (unfold cret in H; congruence). subst r. cbn [fst snd].
    exists u', x', v, n2. auto.
  Qed.

  Definition last_xy (l : list row) (o : option (list Q * list Q)) : option (list Q * list Q) :=
    match rev l with [] => o | r :: _ => Some (row_x r, row_y r) end.

  Lemma last_xy_cons : forall r l o, last_xy (r :: l) o = last_xy l (Some (row_x r, row_y r)).
  Proof.
    intros r l o. unfold last_xy. cbn [rev]. destruct (rev l) as [|a m]; reflexivity.
  Qed.


  Lemma samples_complete : forall t0 f l p rows p', sampled f t0 l p rows p' ->
      forall s o, kept c s -> length (a_x s) = n_x -> a_function s = f -> point_of s = p ->
      exists s', samples_from t0 l o s = (s', Ok (last_xy rows o)) /\ kept c s' /\ length (a_x s') = n_x /\
        (forall r, In r rows -> length (row_x r) = n_x /\ length (row_y r) = length (m_y (f_model c))) /\
        point_of s' = p' /\ a_measurement s' = a_measurement s /\ a_function s' = f /\
        stored "x" s' = stored "x" s ++ rows_x rows /\
        stored "y" s' = stored "y" s ++ rows_y rows /\
        stored "u" s' = stored "u" s ++ rows_u rows /\
        stored "meas" s' = stored "meas" s /\ stored "meas_wo_noise" s' = stored "meas_wo_noise" s.
  Proof.
    intros t0 f l p rows p' H. induction H as [p|d l t x u n u' x' y' v x'' n' rows p Hh Hf Hd Hs IH]; intros s o K L Ef Ep.
    - exists s. cbn. rewrite !app_nil_r. repeat (split; [first [reflexivity|assumption|intros r []]|]). reflexivity.
    - cbn [PlantModel.samples_from].
      assert (Ep' : a_t s = t /\ a_x s = x /\ a_u s = u /\ a_draws s = n) by (unfold point_of in Ep; repeat split; congruence).
      destruct Ep' as [<- [<- [<- <-]]]. subst f.
      destruct (sample_complete t0 d s u' x' y' v x'' n' K L Hh Hf Hd) as [s1 [E1 [K1 [L1 [L2 [P1 [M1 [F1 [A1 [A2 [A3 [A4 A5]]]]]]]]]]]].
      rewrite (cbind_run _ _ _ _ _ _ _ _ E1).
      assert (X1 : a_x s1 = x'') by (unfold point_of in P1; congruence).
      destruct (IH s1 (Some (x'', y')) K1) as [s2 [E2 [K2 [L3 [R2 [P2 [M2 [F2 [B1 [B2 [B3 [B4 B5]]]]]]]]]]]]; [congruence|exact F1|exact P1|].
      exists s2. split; [rewrite last_xy_cons; exact E2|]. split; [exact K2|]. split; [exact L3|].
      split; [intros r [<-|Hr]; [split; [exact L1|exact L2]|exact (R2 _ Hr)]|].
      split; [exact P2|]. split; [congruence|]. split; [exact F2|].
      rewrite B1, B2, B3, B4, B5, A1, A2, A3, A4, A5, <- !app_assoc. repeat split.
  Qed.

  Lemma samples_sound : forall t0 l s s' o r,
      kept c s -> length (a_x s) = n_x -> samples_from t0 l o s = (s', Ok r) ->
      exists rows p', sampled (a_function s) t0 l (point_of s) rows p'.
  Proof.
    intros t0 l. induction l as [|d l IH]; intros s s' o r K L H.
    - exists [], (point_of s). constructor.
    - cbn [PlantModel.samples_from] in H. apply cbind_back in H. destruct H as [s1 [[x'' y'] [E1 H]]].
      destruct (sample_sound _ _ _ _ _ L E1) as [u' [x' [v [n' [Hh [Hf Hd]]]]]]. cbn [fst snd] in *.
      destruct (sample_complete t0 d s u' x' y' v x'' n' K L Hh Hf Hd) as [s1' [E1' [K1 [L1 [L2 [P1 [M1 [F1 _]]]]]]]].
      assert (s1' = s1) by congruence. subst s1'.
      assert (X1 : a_x s1 = x'') by (unfold point_of in P1; congruence).
      destruct (IH s1 s' _ _ K1 ltac:(congruence) H) as [rows [p' Hs]].
      exists (mkRow (t0 + d * f_t_s c) x'' y' v :: rows), p'. unfold point_of at 1.
      eapply sampled_next; [exact Hh|exact Hf|exact Hd|]. rewrite <- P1, <- F1. exact Hs.
  Qed.

  (** ** Measurements *)
  Lemma row_product_dot : forall r v, row_product r v == dot r v.
  Proof.
    intros r v. unfold row_product.
    assert (G : forall l acc, fold_left (fun a ab => a + fst ab * snd ab) l acc == acc + fold_left (fun a ab => a + fst ab * snd ab) l 0).
    { induction l as [|[a b] l IH]; intros acc; cbn [fold_left fst snd]; [ring|]. rewrite IH. rewrite (IH (0 + a * b)). ring. }
    revert v. induction r as [|a r IH]; intros [|b v]; cbn [combine fold_left dot]; try reflexivity.
    rewrite G. cbn [fst snd]. rewrite IH. ring.
  Qed.
  Lemma product_spec : forall v, length v = (n_x + length (m_y (f_model c)))%nat ->
      exists m, dm_product (f_c c) v = Ok m /\ is_product (f_c c) v m /\ length m = length (f_c c).
  Proof.
    intros v L. exists (map (fun row => row_product row v) (f_c c)). unfold dm_product.
    assert (X : forallb (fun row => (length row =? length v)%nat) (f_c c) = true).
    { apply forallb_forall. intros r Hr. apply Nat.eqb_eq. rewrite L. exact (proj1 (Forall_forall _ _) (proj1 (proj2 Fit)) r Hr). }
    rewrite X. split; [reflexivity|]. split; [|apply map_length].
    unfold is_product. clear. induction (f_c c) as [|r l IH]; constructor; [apply row_product_dot|exact IH].
  Qed.

  Lemma measure_spec : forall x y s, length x = n_x -> length y = length (m_y (f_model c)) ->
      exists clean m n', measure w_m c x y s = (set_a_draws n' s, Ok (m, clean)) /\
        is_product (f_c c) (x ++ y) clean /\ disturbed (f_noise c) w_m (a_draws s) clean m n' /\
        length clean = length (f_c c) /\ length m = length (f_c c).
  Proof.
    intros x y s Lx Ly. destruct (product_spec (x ++ y)) as [clean [E [P L]]]; [rewrite app_length; lia|].
    exists clean. unfold measure, cres, cbind. rewrite E. unfold disturbed. destruct (f_noise c) eqn:En.
    - destruct (Sn eq_refl (a_draws s)) as [_ Lw]. rewrite dm_add_plus by congruence.
      do 2 eexists. split; [reflexivity|]. split; [exact P|]. split; [split; reflexivity|]. split; [exact L|].
      rewrite plus_length; congruence.
    - exists clean, (a_draws s). split; [destruct s; reflexivity|]. auto.
  Qed.

  (** ** One control *)
  Lemma samples_nonempty : forall f t0 l p rows p', sampled f t0 l p rows p' -> length rows = length l.
  Proof. intros f t0 l p rows p' H. induction H; simpl; congruence. Qed.
  Lemma samples_last : forall f t0 l p rows p', sampled f t0 l p rows p' -> l <> [] ->
      exists before y v, rows = before ++ [mkRow (fst (fst (fst p'))) (snd (fst (fst p'))) y v].
  Proof.
    intros f t0 l p rows p' H. induction H as [p|d l t x u n u' x' y' v x'' n' rows p Hh Hf Hd Hs IH]; intros N; [congruence|].
    destruct l as [|d' l].
    - inversion Hs; subst. exists [], y', v. reflexivity.
    - destruct IH as [b [y [v' ->]]]; [discriminate|]. eexists (_ :: b), y, v'. reflexivity.
  Qed.

  Lemma recording_kept : forall s, recording c s <-> kept c s /\ length (a_x s) = n_x.
  Proof. unfold recording, kept. tauto. Qed.

  Lemma advance_complete : forall s rows p',
      recording c s -> f_points c <> [] ->
      sampled (a_function s) (a_t s) (f_points c) (point_of s) rows p' ->
      exists s', advance s = (s', Ok tt) /\ recording c s' /\ advanced s s'.
  Proof.
    intros s rows p' R N H. apply recording_kept in R. destruct R as [K L].
    destruct (samples_complete _ _ _ _ _ _ H s None K L eq_refl eq_refl)
      as [s1 [E1 [K1 [L1 [R1 [P1 [M1 [F1 [A1 [A2 [A3 [A4 A5]]]]]]]]]]]].
    destruct p' as [[[t x] u] n]. destruct (samples_last _ _ _ _ _ _ H N) as [before [y [v Er]]]. cbn [fst snd] in Er. subst rows.
    destruct (R1 (mkRow t x y v)) as [Lx Ly]; [apply in_app_iff; right; left; reflexivity|]. cbn [row_x row_y] in Lx, Ly.
    unfold PlantModel.advance. rewrite (cbind_run _ _ _ _ _ _ _ _ E1).
    assert (El : last_xy (before ++ [mkRow t x y v]) None = Some (x, y)).
    { unfold last_xy. rewrite rev_app_distr. reflexivity. }
    rewrite El.
    destruct (measure_spec x y s1 Lx Ly) as [clean [m [n' [E2 [P2 [D2 [Lc Lm]]]]]]].
    rewrite (cbind_run _ _ _ _ _ _ _ _ E2).
    destruct (save_measurement_kept c (m, clean) (set_a_draws n' s1)) as [s2 [E3 [K3 [P3 [M3 [F3 [B1 [B2 [B3 [B4 B5]]]]]]]]]];
      [exact K1|exact Lm|exact Lc|].
    rewrite (cbind_run _ _ _ _ _ _ _ _ E3). unfold cmodify. exists (set_a_measurement m s2). split; [reflexivity|].
    assert (T1 : a_t s1 = t /\ a_x s1 = x /\ a_u s1 = u /\ a_draws s1 = n) by (unfold point_of in P1; repeat split; congruence).
    destruct T1 as [T1 [T2 [T3 T4]]].
    assert (P4 : point_of s2 = (t, x, u, n')) by (rewrite P3; unfold point_of; cbn [a_t a_x a_u a_draws set_a_draws]; congruence).
    split.
    - apply recording_kept. split; [exact K3|]. unfold point_of in P4. cbn [a_x set_a_measurement]. congruence.
    - exists before, t, x, u, n, y, v, clean, m, n'. split; [exact H|]. split; [exact P4|].
      split; [cbn [a_function set_a_measurement]; rewrite F3; exact F1|].
      split; [exact P2|]. split; [rewrite <- T4; exact D2|]. split; [reflexivity|].
      cbn [a_t set_a_draws] in B1, B2. rewrite T1 in B1, B2. cbn [fst snd] in B1, B2.
      change (stored "x" (set_a_measurement m s2)) with (stored "x" s2).
      change (stored "y" (set_a_measurement m s2)) with (stored "y" s2).
      change (stored "u" (set_a_measurement m s2)) with (stored "u" s2).
      change (stored "meas" (set_a_measurement m s2)) with (stored "meas" s2).
      change (stored "meas_wo_noise" (set_a_measurement m s2)) with (stored "meas_wo_noise" s2).
      rewrite B1, B2, B3, B4, B5.
      change (stored "x" (set_a_draws n' s1)) with (stored "x" s1).
      change (stored "y" (set_a_draws n' s1)) with (stored "y" s1).
      change (stored "u" (set_a_draws n' s1)) with (stored "u" s1).
      change (stored "meas" (set_a_draws n' s1)) with (stored "meas" s1).
      change (stored "meas_wo_noise" (set_a_draws n' s1)) with (stored "meas_wo_noise" s1).
      rewrite A1, A2, A3, A4, A5. repeat split.
  Qed.

  Lemma advance_sound : forall s s', recording c s -> advance s = (s', Ok tt) ->
      f_points c <> [] /\ recording c s' /\ advanced s s'.
  Proof.
    intros s s' R H. assert (R' := R). apply recording_kept in R'. destruct R' as [K L]. assert (H0 := H).
    unfold PlantModel.advance in H. apply cbind_back in H. destruct H as [s1 [o [E1 H]]].
    assert (N : f_points c <> []).
    { intros N. rewrite N in E1. cbn in E1. injection E1 as <- <-. discriminate H. }
    split; [exact N|]. destruct (samples_sound _ _ _ _ _ _ K L E1) as [rows [p' Hs]].
    destruct (advance_complete s rows p' R N Hs) as [s2 [E2 [R2 A2]]]. assert (s2 = s') by congruence. subst s2. auto.
  Qed.

  (** The calls. *)
  Lemma step_sound : forall op s s', recording c s -> step op s = (s', Ok tt) ->
      right_size c op /\
      f_points c <> [] /\ recording c s' /\ advanced (given op s) s'.
  Proof.
    intros [u|f] s s' R H; cbn [plant_step] in H.
    - unfold set_control, cguard, cmodify, cbind in H. destruct (Nat.eqb_spec (length u) (length (m_u_par (f_model c)))) as [E|E]; cbn [negb] in H; [|discriminate].
      split; [exact E|]. apply (advance_sound (set_a_u u s)); [exact R|exact H].
    - unfold set_control_function, cmodify, cbind in H. split; [exact I|].
      apply (advance_sound (set_a_function (Some f) s)); [exact R|exact H].
  Qed.
  Lemma step_complete : forall op s rows p', recording c s -> f_points c <> [] ->
      right_size c op ->
      sampled (a_function (given op s)) (a_t s) (f_points c) (point_of (given op s)) rows p' ->
      exists s', step op s = (s', Ok tt).
  Proof.
    intros [u|f] s rows p' R N W H; cbn [plant_step].
    - unfold set_control, cguard, cmodify, cbind. rewrite W, Nat.eqb_refl. cbn [negb].
      destruct (advance_complete (set_a_u u s) rows p') as [s' [E _]]; [exact R|exact N|exact H|]. eauto.
    - unfold set_control_function, cmodify, cbind.
      destruct (advance_complete (set_a_function (Some f) s) rows p') as [s' [E _]]; [exact R|exact N|exact H|]. eauto.
  Qed.

  (** ** Every history keeps records *)
  Lemma sample_recording : forall t0 d s, recording c s -> recording c (fst (sample t0 d s)).
  Proof.
    intros t0 d s R. destruct (sample t0 d s) as [s' [r|e]] eqn:E.
    - assert (R' := R). apply recording_kept in R'. destruct R' as [K L].
      destruct (sample_sound _ _ _ _ _ L E) as [u' [x' [v [n' [Hh [Hf Hd]]]]]]. destruct r as [x'' y']. cbn [fst snd] in *.
      destruct (sample_complete t0 d s u' x' y' v x'' n' K L Hh Hf Hd) as [s1 [E1 [K1 [L1 [L2 [P1 _]]]]]].
      assert (s1 = s') by congruence. subst s1. apply recording_kept. split; [exact K1|]. unfold point_of in P1. congruence.
    - cbn [fst]. unfold PlantModel.sample in E. fold hold in E.
      destruct (hold s) as [s1 [[]|e1]] eqn:Eh.
      2:{ rewrite (cbind_stop _ _ _ _ _ _ _ _ Eh) in E. unfold hold in Eh. destruct (a_function s); [|discriminate].
          destruct (r (a_t s)); [discriminate|]. assert (s' = s) by congruence. subst. exact R. }
      destruct (hold_inv _ _ Eh) as [u' [-> Hh]]. rewrite (cbind_run _ _ _ _ _ _ _ _ Eh) in E.
      destruct (simulate_to (a_x s) (a_t s) (t0 + d * f_t_s c) u') as [[[x' y'] v]|e2] eqn:E1.
      + exfalso. apply recording_kept in R. destruct R as [K L].
        pose proof (simulate_to_sound _ _ _ _ _ _ _ Si E1) as Hf.
        destruct (simulate_to_complete _ _ _ _ _ _ _ Si (proj2 (proj2 (proj2 Fit))) Hf) as [_ [L1 _]].
        destruct (process_noise_spec x' (set_a_u u' s)) as [x2 [n2 [_ [D2 _]]]]; [congruence|].
        destruct (sample_complete t0 d s u' x' y' v x2 n2 K L Hh Hf D2) as [s2 [E2 _]].
        unfold PlantModel.sample in E2. fold hold in E2. rewrite (cbind_run _ _ _ _ _ _ _ _ Eh) in E2. rewrite E in E2. discriminate.
      + rewrite (cbind_stop _ _ _ _ _ _ (set_a_u u' s) e2) in E; [|cbn beta; cbn [a_x a_t a_u set_a_u]; rewrite E1; reflexivity].
        assert (s' = set_a_u u' s) by congruence. subst. exact R.
  Qed.
  Lemma samples_recording : forall t0 l o s, recording c s -> recording c (fst (samples_from t0 l o s)).
  Proof.
    intros t0 l. induction l as [|d l IH]; intros o s R; [exact R|].
    cbn [PlantModel.samples_from]. pose proof (sample_recording t0 d s R) as R1. unfold cbind.
    destruct (sample t0 d s) as [s1 [r|e]]; [apply IH; exact R1|exact R1].
  Qed.
  Lemma advance_recording : forall s, recording c s -> recording c (fst (advance s)).
  Proof.
    intros s R. destruct (advance s) as [s' [[]|e]] eqn:E.
    - apply (advance_sound s s' R E).
    - cbn [fst]. pose proof (samples_recording (a_t s) (f_points c) None s R) as R1.
      assert (E0 := E). unfold PlantModel.advance in E. destruct (samples_from (a_t s) (f_points c) None s) as [s1 [o|e1]] eqn:E1.
      + rewrite (cbind_run _ _ _ _ _ _ _ _ E1) in E. destruct (f_points c) as [|d l] eqn:N.
        * cbn in E1. injection E1 as <- <-. cbn in E. injection E as <- _. exact R.
        * exfalso. assert (R' := R). apply recording_kept in R'. destruct R' as [K L].
          destruct (samples_sound _ _ _ _ _ _ K L E1) as [rows [p' Hs]]. rewrite <- N in Hs.
          destruct (advance_complete s rows p' R) as [s2 [E2 _]]; [congruence|exact Hs|]. congruence.
      + rewrite (cbind_stop _ _ _ _ _ _ _ _ E1) in E. assert (s' = s1) by congruence. subst. exact R1.
  Qed.
  Lemma step_recording : forall op s, recording c s -> recording c (fst (step op s)).
  Proof.
    intros [u|f] s R; cbn [plant_step].
    - unfold set_control, cguard, cmodify, cbind. destruct (negb _); [exact R|]. apply advance_recording. exact R.
    - unfold set_control_function, cmodify, cbind. apply advance_recording. exact R.
  Qed.
  Lemma history_recording : forall ops s, recording c s -> recording c (run_caught step ops s).
  Proof.
    induction ops as [|op ops IH]; intros s R; [exact R|]. cbn. apply IH. apply step_recording. exact R.
  Qed.

  (** ** Construction *)
  Definition blank : dataset := fst (initialize_dataset default c []).
  Lemma blank_ok : initialize_dataset default c [] = (blank, Ok tt).
  Proof. reflexivity. Qed.
  Lemma blank_kept : forall t x u f, kept c (mkPlant t x x u f 0 blank) /\
      forall k, stored k (mkPlant t x x u f 0 blank) = [].
  Proof.
    intros t x u f. split.
    - split; [reflexivity|]. split; [split|split].
      + repeat (constructor; [simpl; intuition discriminate|]). constructor.
      + intros k e. cbn. unfold look. cbn.
        repeat match goal with |- context [String.eqb k ?a] => destruct (String.eqb k a) end; intros E; try discriminate; injection E as <-; split; constructor.
      + intros k e. cbn. unfold look. cbn.
        repeat match goal with |- context [String.eqb k ?a] => destruct (String.eqb k a) end; intros E; try discriminate; injection E as <-; discriminate.
      + intros k e. cbn. unfold look. cbn.
        repeat match goal with |- context [String.eqb k ?a] => destruct (String.eqb k a) end; intros E; try discriminate; injection E as <-; left; reflexivity.
    - intros k. unfold stored, contents. cbn. unfold look. cbn.
      repeat match goal with |- context [String.eqb k ?a] => destruct (String.eqb k a) end; reflexivity.
  Qed.
  Lemma constructed : forall x_0 u_0 f, length x_0 = n_x ->
      (forall u, u_0 = Some u -> length u = length (m_u_expr (f_model c))) ->
      exists s m u, new_plant default c x_0 u_0 f = Ok s /\ recording c s /\
        u = match u_0 with Some u => u | None => repeat 0 (length (m_u (f_model c))) end /\
        point_of s = (f_t_0 c, x_0, u, O) /\ a_function s = f /\ a_measurement s = x_0 /\
        is_product (f_c c) (x_0 ++ f_y_guess c) m /\
        stored "x" s = [(f_t_0 c, x_0)] /\ stored "y" s = [(f_t_0 c, f_y_guess c)] /\ stored "u" s = [(f_t_0 c, u)] /\
        stored "meas" s = [(f_t_0 c, m)] /\ stored "meas_wo_noise" s = [(f_t_0 c, m)].
  Proof.
    intros x_0 u_0 f Lx Lu. unfold new_plant. rewrite blank_ok.
    set (u := match u_0 with Some u => u | None => repeat 0 (length (m_u (f_model c))) end).
    assert (Lu' : length u = length (m_u_expr (f_model c))).
    { unfold u. destruct u_0 as [v|]; [apply Lu; reflexivity|]. rewrite repeat_length. symmetry. apply Fit. }
    destruct (product_spec (x_0 ++ f_y_guess c)) as [m [E [P L]]].
    { rewrite app_length, Lx. rewrite (proj1 Fit). reflexivity. }
    rewrite E. destruct (blank_kept (f_t_0 c) x_0 u f) as [K0 S0].
    destruct (save_data_kept c x_0 (f_y_guess c) u _ K0) as [s1 [E1 [K1 [P1 [M1 [F1 [A1 [A2 [A3 [A4 A5]]]]]]]]]];
      [exact Lx|apply Fit|exact Lu'|].
    destruct (save_measurement_kept c (m, m) s1 K1) as [s2 [E2 [K2 [P2 [M2 [F2 [B1 [B2 [B3 [B4 B5]]]]]]]]]]; [exact L|exact L|].
    rewrite (cbind_run _ _ _ _ _ _ _ _ E1), E2. exists s2, m, u. split; [reflexivity|].
    rewrite S0 in A1, A2, A3, A4, A5. cbn [a_t app] in A1, A2, A3.
    assert (T1 : a_t s1 = f_t_0 c) by (unfold point_of in P1; cbn in P1; congruence).
    assert (P3 : point_of s2 = (f_t_0 c, x_0, u, O)) by (rewrite P2, P1; reflexivity).
    split; [apply recording_kept; split; [exact K2|unfold point_of in P3; congruence]|]. split; [reflexivity|].
    split; [exact P3|]. split; [rewrite F2, F1; reflexivity|]. split; [rewrite M2, M1; reflexivity|]. split; [exact P|].
    rewrite B1, B2, B3, B4, B5, A1, A2, A3, A4, A5, T1. repeat split.
  Qed.
  Lemma reached_recording : forall s, reached default integrate defaults F w_x w_m c s -> recording c s.
  Proof.
    intros s [x_0 [u_0 [f [s_0 [ops [E [Lx [Lu ->]]]]]]]]. apply history_recording.
    destruct (constructed x_0 u_0 f Lx Lu) as [s1 [m [u [E1 [R _]]]]]. assert (s1 = s_0) by congruence. subst. exact R.
  Qed.
End Plant.

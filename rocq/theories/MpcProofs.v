(** Proofs about model predictive control. *)
From Coq Require Import String Lqa.
From Verif Require Import Base BaseProofs UtilModel ExprModel ExprProofs LagModel LagSpec LagProofs SysModel SysSpec SysProofs SysMergeProofs SimModel OcpModel DataModel DiscModel DiscSpec DiscProofs ColSpec ResModel PlantModel PlantSpec PlantProofs PlantTimeProofs MpcModel MpcSpec.
Local Open Scope list_scope.
Local Open Scope cmd_scope.

(** ** Warm start *)

Lemma last_of_last : forall (A : Type) (l : list A) d, l <> [] -> last_of l = Ok (last l d).
Proof.
  intros A l d H. unfold last_of. destruct (exists_last H) as [l' [a ->]].
  rewrite last_last, rev_app_distr. reflexivity.
Qed.
Lemma forward_moved : forall (A : Type) (l : list A) d, l <> [] ->
    moved_forward l (tl l ++ [last l d]).
Proof.
  intros A [|a l] d H; [congruence|]. cbn [tl]. split; [rewrite app_length; cbn; lia|]. split.
  - intros i Hi. rewrite nth_error_app1 by (cbn in Hi; lia). rewrite Nat.add_1_r. reflexivity.
  - cbn [length]. rewrite Nat.sub_succ, Nat.sub_0_r. rewrite nth_error_app2 by lia. rewrite Nat.sub_diag. cbn [nth_error].
    destruct (@exists_last _ (a :: l)) as [l' [b E]]; [discriminate|]. rewrite E, last_last.
    assert (L : length l = length l').
    { assert (X : length (a :: l) = length (l' ++ [b])) by (rewrite E; reflexivity). rewrite app_length in X. cbn in X. lia. }
    rewrite L, nth_error_app2 by lia. rewrite Nat.sub_diag. reflexivity.
Qed.
Lemma grid_forward : forall (A : Type) n m d (l : list (list (list A))), grid n m d l -> n <> O ->
    grid n m d (tl l ++ [last l []]).
Proof.
  intros A n m d l [L H] N. assert (X : l <> []) by (intros ->; cbn in L; congruence).
  split.
  - rewrite app_length. destruct l; [congruence|]. cbn in *. lia.
  - apply Forall_app. split; [destruct l; [constructor|inversion H; assumption]|]. constructor; [|constructor].
    destruct (exists_last X) as [l' [b ->]]. rewrite last_last. apply Forall_app in H. destruct H as [_ H]. inversion H; assumption.
Qed.
Lemma last_tl : forall (A : Type) (l : list A) d, (2 <= length l)%nat -> last (tl l) d = last l d.
Proof. intros A [|a [|b l]] d H; cbn in H; try lia. reflexivity. Qed.

Lemma warm_start : forall k (z : traj Q), (2 <= k_elements k)%nat -> collocation_shape k z ->
    exists z', collocation_shape k z' /\ next_trajectory z z' /\
      step Collocation k (flatten z) = Ok (map (fun q => q * (11 # 10))%Q (flatten z')).
Proof.
  intros k z Hk Hs. assert (Hs' := Hs). destruct Hs as [Gx [Gy [Gu [Le [Lp Lt]]]]].
  assert (Nx : r_x z <> []) by (intros X; destruct Gx as [L _]; rewrite X in L; cbn in L; lia).
  assert (Ny : r_y z <> []) by (intros X; destruct Gy as [L _]; rewrite X in L; cbn in L; lia).
  assert (Nu : r_u z <> []) by (intros X; destruct Gu as [L _]; rewrite X in L; cbn in L; lia).
  set (z' := mkTraj (tl (r_x z) ++ [last (r_x z) []]) (tl (r_y z) ++ [last (r_y z) []])
               (tl (r_u z) ++ [last (r_u z) []]) (r_eta z) (r_p z) (r_theta z)).
  assert (Hz : collocation_shape k z').
  { split; [apply grid_forward; [exact Gx|lia]|]. split; [apply grid_forward; [exact Gy|lia]|].
    split; [apply grid_forward; [exact Gu|lia]|]. split; [exact Le|]. split; [exact Lp|exact Lt]. }
  exists z'. split; [exact Hz|].
  split.
  { split; [apply forward_moved; exact Nx|]. split; [apply forward_moved; exact Ny|].
    split; [apply forward_moved; exact Nu|]. split; [reflexivity|]. split; reflexivity. }
  unfold step. cbn [unpack_with]. rewrite (collocation_unpack_flatten _ k z ltac:(lia) Hs').
  unfold bind. cbn [with_last_state r_x r_y r_u r_eta r_p r_theta].
  assert (Tx : (2 <= length (r_x z))%nat) by (destruct Gx as [L _]; rewrite L; exact Hk).
  assert (Ty : (2 <= length (r_y z))%nat) by (destruct Gy as [L _]; rewrite L; exact Hk).
  assert (Tu : (2 <= length (r_u z))%nat) by (destruct Gu as [L _]; rewrite L; exact Hk).
  destruct (r_x z) as [|x0 lx] eqn:Ex; [congruence|]. cbn [app pop_first].
  assert (Px : pop_last (lx ++ [[last (last (x0 :: lx) []) []]]) = Ok lx).
  { unfold pop_last. destruct (lx ++ _) eqn:E; [destruct lx; discriminate|]. rewrite <- E, removelast_last. reflexivity. }
  rewrite Px. cbn in Tx.
  assert (Nlx : lx <> []) by (intros ->; cbn in Tx; lia).
  rewrite (last_of_last _ lx [] Nlx).
  assert (Nl : last lx [] <> []).
  { destruct (exists_last Nlx) as [l' [b E]]. rewrite E, last_last. destruct Gx as [_ G]. rewrite E in G.
    inversion G as [|a b' _ G']; subst. apply Forall_app in G'. destruct G' as [_ G']. inversion G' as [|a b' [Lb _] _]; subst.
    intros X. subst b. cbn in Lb. lia. }
  rewrite (last_of_last _ (last lx []) [] Nl).
  destruct (r_y z) as [|y0 ly] eqn:Ey; [congruence|]. cbn [pop_first].
  assert (Nly : ly <> []) by (intros ->; cbn in Ty; lia). rewrite (last_of_last _ ly [] Nly).
  destruct (r_u z) as [|u0 lu] eqn:Eu; [congruence|]. cbn [pop_first].
  assert (Nlu : lu <> []) by (intros ->; cbn in Tu; lia). rewrite (last_of_last _ lu [] Nlu).
  assert (Er : collocation_repack (mkTraj (lx ++ [last lx []; [last (last lx []) []]]) (ly ++ [last ly []]) (lu ++ [last lu []]) (r_eta z) (r_p z) (r_theta z))
               = flatten z').
  { rewrite <- (repack_flatten _ z'). unfold with_last_state. unfold z'. cbn [r_x r_y r_u r_eta r_p r_theta tl].
    rewrite last_last. rewrite <- app_assoc. cbn [app].
    assert (L1 : last (x0 :: lx) [] = last lx []) by (destruct lx; [congruence|reflexivity]).
    assert (L2 : last (y0 :: ly) [] = last ly []) by (destruct ly; [congruence|reflexivity]).
    assert (L3 : last (u0 :: lu) [] = last lu []) by (destruct lu; [congruence|reflexivity]).
    rewrite L1, L2, L3. reflexivity. }
  rewrite Er. rewrite (flatten_length _ _ _ _ _ _ Hs'), (flatten_length _ _ _ _ _ _ Hz), Nat.eqb_refl. reflexivity.
Qed.

Lemma warm_start_single : forall k (z : traj Q), k_elements k = 1%nat -> collocation_shape k z ->
    step Collocation k (flatten z) = Raise IndexError.
Proof.
  intros k z Hk Hs. unfold step. cbn [unpack_with]. rewrite (collocation_unpack_flatten _ k z ltac:(lia) Hs).
  unfold bind. cbn [with_last_state r_x]. destruct Hs as [[L _] _]. rewrite Hk in L.
  destruct (r_x z) as [|a [|b l]]; try discriminate. reflexivity.
Qed.
Lemma warm_start_shooting : forall k v r, shooting_unpack k v = Ok r -> step Shooting k v = Raise AttributeError.
Proof. intros k v r H. unfold step. cbn [unpack_with]. rewrite H. reflexivity. Qed.

(** ** The loop *)
Section Loop.
  Variable E : Type.
  Variable estimate : E -> Q -> list Q -> list Q -> E * res (list Q * list Q).
  Variable default : string -> nat -> string.
  Variable integrate : icall -> res (list Q * list Q).
  Variable defaults : options.
  Variable F : nat -> Q -> Q.
  Variables w_x w_m : nat -> list Q.
  Variable points : nat -> list Q.
  Variable solve : list Q -> option (list Q) -> option (list Q) -> list Q -> res solution.
  Variable breakpoint : res unit.
  Variable c : mpc_config.
  Notation cycle := (cycle E estimate default integrate defaults F w_x w_m points solve breakpoint c).
  Notation run_from := (run_from E estimate default integrate defaults F w_x w_m points solve breakpoint c).
  Notation run := (run E estimate default integrate defaults F w_x w_m points solve breakpoint c).
  Notation send := (set_control_function default integrate defaults F w_x w_m (g_plant c)).

  Lemma run_from_outcome : forall n k s r, (0 <= k)%Z ->
      run_from n k s r <-> outcome cycle (Nat.max 1 (Z.to_nat (n - k))) s r.
  Proof.
    intros n k s r Hk. split.
    - intros H. induction H as [k s s' e H|k s s' H L|k s s' r H L _ IH].
      + right. exists O, s, s', e. split; [lia|]. split; [reflexivity|]. auto.
      + left. exists s'. split; [reflexivity|]. replace (Nat.max 1 (Z.to_nat (n - k))) with 1%nat by lia.
        exists s'. split; [exact H|reflexivity].
      + specialize (IH ltac:(lia)). replace (Nat.max 1 (Z.to_nat (n - k))) with (S (Nat.max 1 (Z.to_nat (n - (k + 1))))) by lia.
        destruct IH as [[s2 [-> R]]|[j [s1 [s2 [e [J [R [C ->]]]]]]]].
        * left. exists s2. split; [reflexivity|]. exists s'. auto.
        * right. exists (S j), s1, s2, e. split; [lia|]. split; [exists s'; auto|]. auto.
    - remember (Nat.max 1 (Z.to_nat (n - k))) as m eqn:Em. revert k s Hk Em. induction m as [|m IH]; intros k s Hk Em H; [lia|].
      destruct H as [[s' [-> R]]|[j [s1 [s2 [e [J [R [C ->]]]]]]]].
      + destruct R as [s1 [C R]]. destruct (Z.le_gt_cases (n - 1) k).
        * assert (m = O) by lia. subst m. cbn in R. subst s'. apply run_breaks; assumption.
        * eapply run_goes_on; [exact C|lia|]. apply IH; [lia|lia|]. left. eauto.
      + destruct j as [|j].
        * cbn in R. subst s1. apply run_fails. exact C.
        * destruct R as [s3 [C3 R]]. destruct (Z.le_gt_cases (n - 1) k); [lia|].
          eapply run_goes_on; [exact C3|lia|]. apply IH; [lia|lia|]. right. exists j, s1, s2, e. repeat split; auto; lia.
  Qed.
  Lemma run_outcome : forall n s r, run n s r <-> outcome cycle (planned n) s r.
  Proof. intros n s r. unfold run, planned. rewrite run_from_outcome by lia. rewrite Z.sub_0_r. reflexivity. Qed.

  Lemma outcome_total : forall (S : Type) (round : S -> S * res unit) n s, exists r, outcome round n s r.
  Proof.
    intros S round n. induction n as [|n IH]; intros s; [exists (s, Ok tt); left; exists s; split; reflexivity|].
    destruct (round s) as [s1 [[]|e]] eqn:R.
    - destruct (IH s1) as [r [[s' [-> H]]|[j [s2 [s3 [e [J [H [C ->]]]]]]]]].
      + exists (s', Ok tt). left. exists s'. split; [reflexivity|]. exists s1. auto.
      + exists (s3, Raise e). right. exists (Datatypes.S j), s2, s3, e. split; [lia|]. split; [exists s1; auto|auto].
    - exists (s1, Raise e). right. exists O, s, s1, e. split; [lia|]. split; [reflexivity|auto].
  Qed.
  Lemma rounds_unique : forall (S : Type) (round : S -> S * res unit) n s a b, rounds round n s a -> rounds round n s b -> a = b.
  Proof.
    intros S round n. induction n as [|n IH]; cbn; intros s a b Ha Hb; [congruence|].
    destruct Ha as [s1 [E1 Ha]]. destruct Hb as [s2 [E2 Hb]]. assert (s1 = s2) by congruence. subst. exact (IH _ _ _ Ha Hb).
  Qed.
  Lemma rounds_blocked : forall (S : Type) (round : S -> S * res unit) j n s s1 s2 e s', (j < n)%nat ->
      rounds round j s s1 -> round s1 = (s2, Raise e) -> rounds round n s s' -> False.
  Proof.
    intros S round j. induction j as [|j IH]; intros n s s1 s2 e s' L R C Rn; destruct n as [|n]; try lia.
    - cbn in R. subst s1. destruct Rn as [s3 [C3 _]]. congruence.
    - destruct R as [a [Ca R]]. destruct Rn as [b [Cb Rn]]. assert (a = b) by congruence. subst b.
      apply (IH n a s1 s2 e s'); auto; lia.
  Qed.
  Lemma outcome_unique : forall (S : Type) (round : S -> S * res unit) n s r r', outcome round n s r -> outcome round n s r' -> r = r'.
  Proof.
    intros S round n s r r' [[a [-> Ra]]|[j [s1 [s2 [e [J [R [C ->]]]]]]]] [[b [-> Rb]]|[j' [s1' [s2' [e' [J' [R' [C' ->]]]]]]]].
    - rewrite (rounds_unique _ _ _ _ _ _ Ra Rb). reflexivity.
    - exfalso. eapply rounds_blocked; [exact J'|exact R'|exact C'|exact Ra].
    - exfalso. eapply rounds_blocked; [exact J|exact R|exact C|exact Rb].
    - destruct (Nat.lt_trichotomy j j') as [L|[->|L]].
      + exfalso. eapply rounds_blocked; [exact L|exact R|exact C|exact R'].
      + assert (s1 = s1') by (eapply rounds_unique; eauto). subst s1'. congruence.
      + exfalso. eapply rounds_blocked; [exact L|exact R'|exact C'|exact R].
  Qed.

  (** ** One round *)
  Notation write_entry := (write_entry E).
  Notation state := (mpc E).

  Lemma set_b_same : forall s : state, set_b_p E (b_p s) s = s.
  Proof. intros []. reflexivity. Qed.
  Lemma nth_set_nth : forall (p : list Q) j v, (j < length p)%nat ->
      length (set_nth p j v) = length p /\ nth_error (set_nth p j v) j = Some v /\
      forall k, k <> j -> nth_error (set_nth p j v) k = nth_error p k.
  Proof.
    induction p as [|a p IH]; intros j v L; [cbn in L; lia|]. destruct j as [|j]; cbn.
    - split; [reflexivity|]. split; [reflexivity|]. intros [|k] N; [congruence|reflexivity].
    - destruct (IH j v) as [A [B D]]; [cbn in L; lia|]. split; [rewrite A; reflexivity|]. split; [exact B|].
      intros [|k] N; [reflexivity|]. cbn. apply D. congruence.
  Qed.
  Lemma set_nth_unique : forall (p p' : list Q) j v, length p' = length p -> nth_error p' j = Some v ->
      (forall k, k <> j -> nth_error p' k = nth_error p k) -> p' = set_nth p j v.
  Proof.
    induction p as [|a p IH]; intros [|b p'] j v L H1 H2; try discriminate.
    - destruct j; discriminate.
    - destruct j as [|j]; cbn in *.
      + injection H1 as ->. f_equal. apply nth_ext with 0%Q 0%Q; [lia|]. intros n Hn.
        specialize (H2 (S n) ltac:(lia)). cbn in H2. rewrite (nth_error_nth' p' 0%Q Hn) in H2.
        rewrite (nth_error_nth' p 0%Q (n:=n) ltac:(lia)) in H2. congruence.
      + f_equal; [specialize (H2 O ltac:(lia)); cbn in H2; congruence|]. apply IH; [lia|exact H1|].
        intros k Nk. apply (H2 (S k)). congruence.
  Qed.

  Lemma write_run : forall src l (s s' : state), crun (write_entry src) l s = (s', Ok tt) <->
      (l = [] /\ s' = s) \/ exists a b, b_p s = Some a /\ copied src l a b /\ s' = set_b_p E (Some b) s.
  Proof.
    intros src l. induction l as [|[i j] l IH]; intros s s'.
    - cbn. unfold crun. cbn. split.
      + intros H. left. split; [reflexivity|congruence].
      + intros [[_ ->]|[a [b [H [C ->]]]]]; [reflexivity|]. inversion C; subst. rewrite <- H, set_b_same. reflexivity.
    - unfold crun. cbn [run_all]. unfold MpcModel.write_entry at 1. unfold cset. cbn [fst snd].
      destruct (b_p s) as [p|] eqn:Ep.
      2:{ split; [discriminate|]. intros [[X _]|[a [b [X _]]]]; discriminate. }
      destruct (nth_error src i) as [v|] eqn:Ev.
      2:{ split; [discriminate|]. intros [[X _]|[a [b [X [C _]]]]]; [discriminate|]. inversion C; subst. congruence. }
      destruct (Nat.ltb_spec j (length p)) as [L|L].
      2:{ split; [discriminate|]. intros [[X _]|[a [b [X [C _]]]]]; [discriminate|]. inversion C; subst. injection X as <-. lia. }
      specialize (IH (set_b_p E (Some (set_nth p j v)) s) s'). unfold crun in IH. rewrite IH.
      destruct (nth_set_nth p j v L) as [A [B D]]. split.
      + intros [[-> ->]|[a [b [X [C ->]]]]]; right.
        * exists p, (set_nth p j v). split; [reflexivity|]. split; [|reflexivity].
          eapply copied_next; eauto. constructor.
        * cbn in X. injection X as <-. exists p, b. split; [reflexivity|]. split; [|reflexivity].
          eapply copied_next; eauto.
      + intros [[X _]|[a [b [X [C ->]]]]]; [discriminate|]. injection X as <-.
        inversion C as [|i' j' l' v' p0 p' q Hv Hj Hl Hn Hk Hc]; subst. assert (v' = v) by congruence. subst v'.
        assert (p' = set_nth p j v) by (apply set_nth_unique; assumption). subst p'.
        right. exists (set_nth p j v), b. split; [reflexivity|]. split; [exact Hc|reflexivity].
  Qed.

  Lemma get_parameter_ok : forall x cov (s s' : state) p,
      get_parameter E c x cov s = (s', Ok p) <->
      parameters c x cov (b_p s) p /\ s' = set_b_p E p s.
  Proof.
    intros x cov s s' p. unfold get_parameter, parameters. split.
    - intros H. apply cbind_back in H. destruct H as [s1 [[] [H1 H]]]. apply cbind_back in H. destruct H as [s2 [[] [H2 H]]].
      assert (X : s2 = s' /\ b_p s2 = p) by (split; congruence). destruct X as [-> Hp]. clear H.
      assert (P1 : (if g_mean c
              then g_mean_indices c = [] /\ b_p s1 = b_p s \/
                   exists a b, b_p s = Some a /\ b_p s1 = Some b /\ copied x (g_mean_indices c) a b
              else b_p s1 = b_p s) /\ s1 = set_b_p E (b_p s1) s).
      { destruct (g_mean c).
        - apply write_run in H1. destruct H1 as [[Hl ->]|[a [b [Ha [Hc ->]]]]].
          + split; [left; auto|]. symmetry. apply set_b_same.
          + split; [right; exists a, b; cbn; auto|reflexivity].
        - unfold cret in H1. assert (s1 = s) by congruence. subst. split; [reflexivity|]. symmetry. apply set_b_same. }
      destruct P1 as [P1 S1].
      assert (P2 : (if g_covariance c
              then g_cov_indices c = [] /\ p = b_p s1 \/
                   exists a b, b_p s1 = Some a /\ p = Some b /\ copied cov (g_cov_indices c) a b
              else p = b_p s1) /\ s' = set_b_p E p s1).
      { destruct (g_covariance c).
        - apply write_run in H2. destruct H2 as [[Hl ->]|[a [b [Ha [Hc ->]]]]].
          + split; [left; auto|]. rewrite <- Hp. symmetry. apply set_b_same.
          + cbn in Hp. split; [right; exists a, b; cbn; auto|congruence].
        - unfold cret in H2. assert (s1 = s') by congruence. subst. split; [reflexivity|]. symmetry. apply set_b_same. }
      destruct P2 as [P2 S2]. split; [exists (b_p s1); auto|]. rewrite S2, S1. reflexivity.
    - intros [[pm [P1 P2]] ->].
      assert (H1 : (if g_mean c then crun (write_entry x) (g_mean_indices c) else cret tt) s = (set_b_p E pm s, Ok tt)).
      { destruct (g_mean c).
        - apply write_run. destruct P1 as [[Hl ->]|[a [b [Ha [-> Hc]]]]]; [left; split; [exact Hl|apply set_b_same]|right; eauto].
        - subst pm. rewrite set_b_same. reflexivity. }
      rewrite (cbind_run _ _ _ _ _ _ _ _ H1).
      assert (H2 : (if g_covariance c then crun (write_entry cov) (g_cov_indices c) else cret tt) (set_b_p E pm s) = (set_b_p E p s, Ok tt)).
      { destruct (g_covariance c).
        - apply write_run. destruct P2 as [[Hl ->]|[a [b [-> [-> Hc]]]]]; [left; auto|right; exists a, b; auto].
        - subst pm. reflexivity. }
      rewrite (cbind_run _ _ _ _ _ _ _ _ H2). reflexivity.
  Qed.

  Lemma match_nonempty : forall (A B : Type) (l : list A) (a b : B), l <> [] -> match l with [] => a | _ => b end = b.
  Proof. intros A B [|x l] a b H; [congruence|reflexivity]. Qed.
  Lemma cycle_ok : forall s s' : state, cycle s = (s', Ok tt) <->
      breakpoint = Ok tt /\ round_done estimate send points F solve c s s'.
  Proof.
    intros s s'. unfold MpcModel.cycle. split.
    - intros H. apply cbind_back in H. destruct H as [s1 [[] [H1 H]]]. unfold cmodify in H1.
      assert (S1 : s1 = set_b_iteration E (S (b_iteration s)) s) by congruence. clear H1.
      apply cbind_back in H. destruct H as [s2 [m [H2 H]]]. assert (S2 : s2 = s1 /\ m = get_measurement (b_plant s1)) by (split; congruence).
      destruct S2 as [-> ->]. clear H2. unfold get_measurement in H. cbn [fst snd] in H.
      apply cbind_back in H. destruct H as [s3 [xc [H3 H]]]. unfold get_states in H3.
      destruct (estimate (b_estimator s1) (a_t (b_plant s1)) (a_measurement (b_plant s1)) (a_u (b_plant s1))) as [e' [[x cov]|]] eqn:Ee; [|discriminate].
      assert (S3 : s3 = set_b_estimator E e' s1 /\ xc = (if g_include_cost c then x ++ [0%Q] else x, cov)) by (split; congruence).
      destruct S3 as [S3 ->]. clear H3. cbn [fst snd] in H.
      apply cbind_back in H. destruct H as [s4 [p [H4 H]]]. apply get_parameter_ok in H4. destruct H4 as [P4 S4].
      apply cbind_back in H. destruct H as [s5 [u5 [H5 H]]]. unfold get_new_control in H5.
      apply cbind_back in H5. destruct H5 as [s6 [[] [H6 H5]]]. unfold cres in H6.
      destruct breakpoint as [[]|]; [|discriminate]. assert (S6 : s6 = s4) by congruence. subst s6. clear H6.
      split; [reflexivity|].
      apply cbind_back in H5. destruct H5 as [s7 [z [H7 H5]]]. assert (S7 : s7 = s4) by congruence. subst s7.
      assert (Z : solve (match g_rearrange c with Some f => f (if g_include_cost c then x ++ [0%Q] else x) | None => if g_include_cost c then x ++ [0%Q] else x end)
                    (b_guess s4) p (a_u (b_plant s1)) = Ok z) by congruence. clear H7.
      destruct z as [raw r|]; [|discriminate].
      apply cbind_back in H5. destruct H5 as [s8 [[] [H8 H5]]]. unfold cset in H8.
      destruct (step (g_scheme c) (g_method c) raw) as [g|] eqn:Eg; [|discriminate].
      assert (S8 : s8 = set_b_guess E (Some g) s4) by congruence. clear H8.
      apply cbind_back in H5. destruct H5 as [s9 [[] [H9 H5]]]. unfold cmodify in H9.
      assert (S9 : s9 = set_b_last E (Some [r]) s8) by congruence. clear H9.
      unfold cres in H5. destruct (first_control r) as [u0|] eqn:Ef; [|discriminate]. assert (S5 : s5 = s9) by congruence. subst s5. clear H5.
      unfold send_control in H. rewrite S9 in H. cbn [b_last set_b_last] in H. change (at_index [r] 0 IndexError) with (@Ok opt_result r) in H. cbv beta iota in H.
      destruct (first_control_parameters r) as [pars|] eqn:Epar; [|discriminate].
      assert (Np : pars <> []) by (intros ->; discriminate).
      rewrite (match_nonempty _ _ pars) in H by exact Np.
      assert (W : exists rest, w_u r = pars :: rest).
      { unfold first_control_parameters, at_index in Epar. destruct (w_u r) as [|a rest]; [discriminate|]. cbn in Epar. exists rest. congruence. }
      destruct W as [rest W].
      assert (B : b_plant s8 = b_plant s) by (rewrite S8, S4, S3, S1; reflexivity).
      change (b_plant (set_b_last E (Some [r]) s8)) with (b_plant s8) in H. rewrite B in H. destruct (make_control_function points F _ _ _ _ _) as [f|] eqn:Em; [|discriminate].
      destruct (send f (b_plant s)) as [pl [[]|]] eqn:Es; [|discriminate].
      assert (S' : s' = set_b_plant E pl s9) by (rewrite S9; congruence).
      exists x, cov, raw, r, g, pars, rest, f. cbv zeta.
      assert (B1 : b_plant s1 = b_plant s) by (rewrite S1; reflexivity). rewrite B1 in *.
      assert (Be : b_estimator s1 = b_estimator s) by (rewrite S1; reflexivity). rewrite Be in *.
      assert (Bg : b_guess s4 = b_guess s) by (rewrite S4, S3, S1; reflexivity). rewrite Bg in *.
      assert (Bp : b_p s3 = b_p s) by (rewrite S3, S1; reflexivity). rewrite Bp in *.
      assert (Ep' : b_p s' = p) by (rewrite S', S9, S8, S4; reflexivity). rewrite Ep'.
      assert (Ee' : b_estimator s' = e') by (rewrite S', S9, S8, S4, S3; reflexivity). rewrite Ee'.
      split; [exact Ee|]. split; [exact P4|]. split; [exact Z|]. split; [exact Eg|].
      split; [rewrite S', S9, S8; reflexivity|]. split; [rewrite S', S9; reflexivity|].
      split; [rewrite S', S9, S8, S4, S3, S1; reflexivity|]. split; [exact W|]. split; [exact Np|]. split; [exact Em|].
      rewrite Es, S'. reflexivity.
    - intros [Hb [x [cov [raw [r [g [pars [rest [f R]]]]]]]]]. cbv zeta in R.
      destruct R as [Ee [Hp [Hz [Hg [Gg [Gl [Gi [W [Np [Em Es]]]]]]]]]].
      unfold cmodify at 1. rewrite (cbind_run _ _ _ _ _ _ (set_b_iteration E (S (b_iteration s)) s) tt) by reflexivity.
      match goal with |- cbind ?m ?k ?s0 = _ => rewrite (cbind_run _ _ _ m k s0 s0 (get_measurement (b_plant s))) by reflexivity end.
      unfold get_measurement. cbn [fst snd]. unfold get_states at 1.
      match goal with |- cbind ?m ?k ?s0 = _ => rewrite (cbind_run _ _ _ m k s0 (set_b_estimator E (b_estimator s') s0) (if g_include_cost c then x ++ [0%Q] else x, cov)) end.
      2:{ cbn [b_estimator set_b_iteration]. rewrite Ee. reflexivity. }
      cbn [fst snd].
      match goal with |- cbind ?m ?k ?s0 = _ => rewrite (cbind_run _ _ _ m k s0 (set_b_p E (b_p s') s0) (b_p s')) end.
      2:{ apply get_parameter_ok. split; [exact Hp|reflexivity]. }
      assert (Fc : exists u0, first_control r = Ok u0).
      { unfold first_control. rewrite W. unfold at_index. cbn. destruct pars as [|u0 l]; [congruence|]. exists u0. reflexivity. }
      destruct Fc as [u0 Fc].
      match goal with |- cbind ?m ?k ?s0 = _ => rewrite (cbind_run _ _ _ m k s0 (set_b_last E (Some [r]) (set_b_guess E (Some g) s0)) u0) end.
      2:{ unfold get_new_control. rewrite Hb. unfold cres at 1. unfold cbind at 1. unfold cbind at 1. cbn [b_guess set_b_p set_b_estimator set_b_iteration].
          rewrite Hz. unfold cbind, cset, cmodify, cres. rewrite Hg, Fc. reflexivity. }
      unfold send_control. cbn [b_last set_b_last]. change (at_index [r] 0 IndexError) with (@Ok opt_result r). cbv beta iota.
      assert (Fp : first_control_parameters r = Ok pars) by (unfold first_control_parameters, at_index; rewrite W; reflexivity).
      destruct s as [pl gu pp it la es]; destruct s' as [pl' gu' pp' it' la' es']. cbn [b_plant b_guess b_p b_iteration b_last b_estimator set_b_plant set_b_guess set_b_p set_b_iteration set_b_last set_b_estimator] in *.
      rewrite Fp. destruct pars as [|p0 l]; [congruence|]. rewrite Em. rewrite Es. subst. reflexivity.
  Qed.

  (** ** What never works *)
  Lemma no_breakpoint : forall e, breakpoint = Raise e -> forall s : state, exists e', snd (cycle s) = Raise e'.
  Proof.
    intros e He s. destruct (cycle s) as [s' [[]|e']] eqn:Ec; [|exists e'; reflexivity].
    apply cycle_ok in Ec. destruct Ec as [Hb _]. congruence.
  Qed.
  Lemma several_solutions : (forall x g p u r, solve x g p u = Ok r -> exists l, r = Several l) ->
      forall s : state, exists e', snd (cycle s) = Raise e'.
  Proof.
    intros Hs s. destruct (cycle s) as [s' [[]|e']] eqn:Ec; [|exists e'; reflexivity].
    apply cycle_ok in Ec. destruct Ec as [_ [x [cov [raw [r [g [pars [rest [f R]]]]]]]]]. cbv zeta in R.
    destruct R as [_ [_ [Hz _]]]. apply Hs in Hz. destruct Hz; discriminate.
  Qed.
  Lemma shooting_never : g_scheme c = Shooting -> forall s : state, exists e', snd (cycle s) = Raise e'.
  Proof.
    intros Hs s. destruct (cycle s) as [s' [[]|e']] eqn:Ec; [|exists e'; reflexivity].
    apply cycle_ok in Ec. destruct Ec as [_ [x [cov [raw [r [g [pars [rest [f R]]]]]]]]]. cbv zeta in R.
    destruct R as [_ [_ [_ [Hg _]]]]. rewrite Hs in Hg. unfold step in Hg. destruct (unpack_with Shooting (g_method c) raw); discriminate.
  Qed.
  Lemma iterations : forall n (s s' : state), rounds cycle n s s' -> b_iteration s' = (b_iteration s + n)%nat.
  Proof.
    induction n as [|n IH]; intros s s' H; cbn in H; [subst; lia|]. destruct H as [s1 [C H]]. apply IH in H.
    apply cycle_ok in C. destruct C as [_ [x [cov [raw [r [g [pars [rest [f R]]]]]]]]]. cbv zeta in R.
    assert (b_iteration s1 = S (b_iteration s)) by apply R. lia.
  Qed.

  (** ** Time *)
  Lemma rounds_time : forall n (s s' : state), rounds cycle n s s' ->
      (a_t (b_plant s') == a_t (b_plant s) + q_of_nat n * (last (f_points (g_plant c)) 0 * f_t_s (g_plant c)))%Q.
  Proof.
    induction n as [|n IH]; intros s s' H; cbn [rounds] in H.
    - subst. change (q_of_nat 0) with 0%Q. ring.
    - destruct H as [s1 [C H]]. apply IH in H. apply cycle_ok in C.
      destruct C as [_ [x [cov [raw [r [g [pars [rest [f R]]]]]]]]]. cbv zeta in R.
      assert (Hs : send f (b_plant s) = (b_plant s1, Ok tt)) by apply R.
      apply (step_time default integrate defaults F w_x w_m (g_plant c) (SetFunction f)) in Hs. rewrite H, Hs, q_of_nat_S. ring.
  Qed.

  (** ** The parameter vector *)
  Lemma copied_length : forall src l p q, copied src l p q -> length q = length p.
  Proof. intros src l p q H. induction H; congruence. Qed.
  Lemma copied_other : forall src l p q, copied src l p q -> forall k, ~ In k (map snd l) -> nth_error q k = nth_error p k.
  Proof.
    intros src l p q H. induction H as [|i j l v p p' q Hv Hj Hl Hn Hk Hc IH]; intros k N; [reflexivity|].
    cbn in N. rewrite IH by tauto. apply Hk. intros ->. tauto.
  Qed.
  Lemma copied_entry : forall src l p q, copied src l p q -> NoDup (map snd l) ->
      forall i j, In (i, j) l -> nth_error q j = nth_error src i /\ nth_error src i <> None.
  Proof.
    intros src l p q H. induction H as [|i j l v p p' q Hv Hj Hl Hn Hk Hc IH]; intros N a b X; [destruct X|].
    cbn in N. inversion N; subst. destruct X as [X|X].
    - injection X as -> ->. rewrite (copied_other _ _ _ _ Hc) by assumption. split; congruence.
    - apply IH; assumption.
  Qed.
  Lemma parameters_keep : forall x cov p p', parameters c x cov p p' ->
      match p, p' with
      | None, None => True
      | Some a, Some b => length b = length a /\ forall j, untouched c j -> nth_error b j = nth_error a j
      | _, _ => False
      end.
  Proof.
    intros x cov p p' [pm [H1 H2]].
    assert (K : forall (b : bool) src l u v, (if b then l = [] /\ v = u \/ (exists a d, u = Some a /\ v = Some d /\ copied src l a d) else v = u) ->
      match u, v with None, None => True
      | Some a, Some d => length d = length a /\ forall j, (b = true -> ~ In j (map snd l)) -> nth_error d j = nth_error a j
      | _, _ => False end).
    { intros [|] src l u v H.
      - destruct H as [[-> ->]|[a [d [-> [-> H]]]]]; [destruct u; auto|].
        split; [eapply copied_length; eauto|]. intros j Hj. eapply copied_other; eauto.
      - subst v. destruct u; auto. }
    apply K in H1. apply K in H2. destruct p as [a|], pm as [b|]; try contradiction; destruct p' as [d|]; try contradiction; [|exact I].
    destruct H1 as [L1 H1], H2 as [L2 H2]. split; [congruence|]. intros j [U1 U2]. rewrite H2, H1 by assumption. reflexivity.
  Qed.
  Lemma rounds_parameters : forall n (s s' : state), rounds cycle n s s' ->
      match b_p s, b_p s' with
      | None, None => True
      | Some a, Some b => length b = length a /\ forall j, untouched c j -> nth_error b j = nth_error a j
      | _, _ => False
      end.
  Proof.
    induction n as [|n IH]; intros s s' H; cbn [rounds] in H.
    - subst. destruct (b_p s); auto.
    - destruct H as [s1 [C H]]. apply IH in H. apply cycle_ok in C.
      destruct C as [_ [x [cov [raw [r [g [pars [rest [f R]]]]]]]]]. cbv zeta in R.
      destruct R as [_ [Hp _]]. apply parameters_keep in Hp.
      destruct (b_p s) as [a|], (b_p s1) as [b|]; try contradiction; destruct (b_p s') as [d|]; try contradiction; auto.
      destruct Hp as [L1 P1], H as [L2 P2]. split; [congruence|]. intros j U. rewrite P2, P1 by exact U. reflexivity.
  Qed.
  (** The mean in the parameter vector of the last optimisation is the current estimate. *)
  Lemma mean_current : forall x cov p p', parameters c x cov p p' -> g_mean c = true ->
      NoDup (map snd (g_mean_indices c)) ->
      (g_covariance c = true -> forall j, In j (map snd (g_mean_indices c)) -> ~ In j (map snd (g_cov_indices c))) ->
      forall i j, In (i, j) (g_mean_indices c) -> exists b, p' = Some b /\ nth_error b j = nth_error x i /\ nth_error x i <> None.
  Proof.
    intros x cov p p' [pm [H1 H2]] Hm N D i j I. rewrite Hm in H1.
    destruct H1 as [[Hl _]|[a [b [-> [-> H1]]]]]; [rewrite Hl in I; destruct I|].
    destruct (copied_entry _ _ _ _ H1 N _ _ I) as [E1 E2].
    assert (Ij : In j (map snd (g_mean_indices c))) by (apply in_map_iff; exists (i, j); auto).
    destruct (g_covariance c).
    - destruct H2 as [[_ ->]|[a' [d [X [-> H2]]]]]; [exists b; auto|]. assert (a' = b) by congruence. subst a'.
      exists d. split; [reflexivity|]. split; [|exact E2]. rewrite (copied_other _ _ _ _ H2) by (apply D; auto). exact E1.
    - subst p'. exists b. auto.
  Qed.

  (** ** Fixed controls *)
  Lemma fixed_ignored : forall u v n (s : state),
      run_fixed_control E default integrate defaults F w_x w_m points c u n s =
      run_fixed_control E default integrate defaults F w_x w_m points c v n s.
  Proof. intros u v n s. reflexivity. Qed.
  Lemma fixed_fresh : forall u n (s : state), b_last s = None -> (0 < n)%nat ->
      snd (run_fixed_control E default integrate defaults F w_x w_m points c u n s) = Raise TypeError.
  Proof.
    intros u n s Hl Hn. destruct n as [|n]; [lia|]. unfold run_fixed_control, crun. cbn [seq run_all].
    unfold fixed_round, cmodify, cbind, send_control. cbn [b_last set_b_iteration]. rewrite Hl. reflexivity.
  Qed.
  Lemma estimating_ok : forall u (s s' : state),
      estimating_round E estimate default integrate defaults F w_x w_m points c u s = (s', Ok tt) ->
      round_repeated estimate send points F c s s'.
  Proof.
    intros u s s' H. unfold estimating_round in H.
    apply cbind_back in H. destruct H as [s1 [[] [H1 H]]]. unfold cmodify in H1.
    assert (S1 : s1 = set_b_iteration E (S (b_iteration s)) s) by congruence. clear H1.
    apply cbind_back in H. destruct H as [s2 [m [H2 H]]]. assert (S2 : s2 = s1 /\ m = get_measurement (b_plant s1)) by (split; congruence).
    destruct S2 as [-> ->]. clear H2. unfold get_measurement in H. cbn [fst snd] in H.
    apply cbind_back in H. destruct H as [s3 [xc [H3 H]]]. unfold get_states in H3.
    destruct (estimate (b_estimator s1) (a_t (b_plant s1)) (a_measurement (b_plant s1)) (a_u (b_plant s1))) as [e' [[x cov]|]] eqn:Ee; [|discriminate].
    assert (S3 : s3 = set_b_estimator E e' s1) by congruence. clear H3.
    assert (B3 : b_plant s3 = b_plant s) by (rewrite S3, S1; reflexivity).
    assert (L3 : b_last s3 = b_last s) by (rewrite S3, S1; reflexivity).
    unfold send_control in H. rewrite B3, L3 in H. destruct (b_last s) as [l|] eqn:El; [|discriminate].
    destruct l as [|r l]; [discriminate|]. change (at_index (r :: l) 0 IndexError) with (@Ok opt_result r) in H. cbv beta iota in H.
    destruct (first_control_parameters r) as [pars|] eqn:Epar; [|discriminate].
    assert (Np : pars <> []) by (intros ->; discriminate).
    rewrite (match_nonempty _ _ pars) in H by exact Np.
    assert (W : exists rest, w_u r = pars :: rest).
    { unfold first_control_parameters, at_index in Epar. destruct (w_u r) as [|a rest]; [discriminate|]. cbn in Epar. exists rest. congruence. }
    destruct W as [rest W].
    destruct (make_control_function points F _ _ _ _ _) as [f|] eqn:Em; [|discriminate].
    destruct (send f (b_plant s)) as [pl [[]|]] eqn:Es; [|discriminate].
    assert (S' : s' = set_b_plant E pl s3) by congruence.
    exists x, cov, r, l, pars, rest, f. cbv zeta.
    assert (B1 : b_plant s1 = b_plant s) by (rewrite S1; reflexivity). rewrite B1 in *.
    assert (Be : b_estimator s1 = b_estimator s) by (rewrite S1; reflexivity). rewrite Be in *.
    rewrite S', S3, S1. cbn [b_plant b_guess b_p b_iteration b_last b_estimator set_b_plant set_b_guess set_b_p set_b_iteration set_b_last set_b_estimator].
    repeat match goal with |- _ /\ _ => split end; assumption || reflexivity.
  Qed.
  Lemma fixed_estimated : forall u n (s s' : state),
      run_fixed_control_with_estimator E estimate default integrate defaults F w_x w_m points c u n s = (s', Ok tt) ->
      steps (round_repeated estimate send points F c) n s s'.
  Proof.
    intros u n. unfold run_fixed_control_with_estimator, crun. generalize 0%nat as k.
    induction n as [|n IH]; intros k s s' H; cbn [seq run_all] in H.
    - cbn [steps]. congruence.
    - destruct (estimating_round E estimate default integrate defaults F w_x w_m points c u s) as [s1 [[]|]] eqn:E1; [|discriminate].
      exists s1. split; [apply (estimating_ok u); exact E1|]. apply (IH (S k)). exact H.
  Qed.
  Lemma fixed_estimated_fresh : forall u v n (s : state),
      run_fixed_control_with_estimator E estimate default integrate defaults F w_x w_m points c u n s =
      run_fixed_control_with_estimator E estimate default integrate defaults F w_x w_m points c v n s /\
      (b_last s = None -> (0 < n)%nat -> forall s',
       run_fixed_control_with_estimator E estimate default integrate defaults F w_x w_m points c u n s <> (s', Ok tt)).
  Proof.
    intros u v n s. split; [reflexivity|]. intros Hl Hn s' H. apply fixed_estimated in H.
    destruct n as [|n]; [lia|]. destruct H as [s1 [[x [cov [r [l [pars [rest [f R]]]]]]] _]]. cbv zeta in R.
    destruct R as [_ [_ [_ [_ [R _]]]]]. congruence.
  Qed.
End Loop.

(** ** Control functions *)
Section Function.
  Variable points : nat -> list Q.
  Variable F : nat -> Q -> Q.
  Variable m : model.
  Local Open Scope Q_scope.

  Lemma Forall2_Qnth : forall u v, length u = length v -> (forall i, (i < length u)%nat -> nth i u 0 == nth i v 0) -> Forall2 Qeq u v.
  Proof.
    induction u as [|a u IH]; intros [|b v] L H; try discriminate; constructor.
    - exact (H O ltac:(cbn; lia)).
    - apply IH; [cbn in L; lia|]. intros i Hi. exact (H (S i) ltac:(cbn; lia)).
  Qed.
  Lemma qsum_scaled : forall v (f g : nat -> Q) l, (forall j, In j l -> f j == v * g j) -> qsum (map f l) == v * qsum (map g l).
  Proof.
    intros v f g l. induction l as [|j l IH]; intros H; [cbn; ring|].
    cbn [map]. change (qsum (f j :: map f l)) with (f j + qsum (map f l)). change (qsum (g j :: map g l)) with (g j + qsum (map g l)).
    rewrite (H j) by (left; reflexivity). rewrite IH by (intros k Hk; apply H; right; exact Hk). ring.
  Qed.
  Lemma assign_nth : forall env v q k a d, NoDup v -> length v = length q -> nth_error v k = Some a ->
      assign env v q a = nth k q d.
  Proof.
    intros env v. induction v as [|b v IH]; intros q k a d N L H; [destruct k; discriminate|].
    inversion N; subst. destruct q as [|x q]; [discriminate|]. cbn [assign].
    destruct k as [|k]; cbn in H.
    - injection H as <-. destruct (Nat.eq_dec b b); [reflexivity|congruence].
    - destruct (Nat.eq_dec a b) as [->|Nab]; [exfalso; apply H2; eapply nth_error_In; exact H|]. cbn [nth]. apply IH; auto.
  Qed.

  (** The value of the function: the polynomial under the values, at tau. *)
  Lemma control_value : forall degree values a b f,
      let first := S (Nat.max (m_t m) (m_tau m)) in
      let (pol, par) := create_polynomial_approximation points (m_tau m) (length (m_u m)) degree first false in
      length values = length par ->
      make_control_function points F m degree values a b = Ok f ->
      forall t, f t = Ok (map (eval F (assign (upd (fun s => if Nat.eqb s (m_t m) then t else 0) (m_tau m) ((t - a) / (b - a))) par values)) pol).
  Proof.
    intros degree values a b f. cbv zeta. unfold make_control_function.
    destruct (create_polynomial_approximation _ _ _ _ _ _) as [pol par]. intros L. rewrite L, Nat.eqb_refl. intros H.
    assert (H' : f = fun t => Ok (map (eval F (fun s => if Nat.eqb s (m_t m) then t else 0))
       (map (fun e => convert_expr_from_tau_to_time e (m_t m) (m_tau m) a b) (subst_vec pol par (map EConst values))))) by congruence.
    subst f. clear H. intros t. f_equal. unfold subst_vec. rewrite !map_map. apply map_ext. intros e.
    rewrite tau_to_time_value. rewrite Nat.eqb_refl. rewrite eval_assign. rewrite map_map. cbn [eval]. rewrite map_id. reflexivity.
  Qed.
  Lemma par_fresh : forall size n s, (s < S (Nat.max (m_t m) (m_tau m)))%nat ->
      ~ In s (vec_points (S (Nat.max (m_t m) (m_tau m))) size n).
  Proof.
    intros size n s H I. unfold vec_points in I. apply in_flat_map in I. destruct I as [j [_ I]].
    apply in_map_iff in I. destruct I as [i [X _]]. unfold point_sym in X. lia.
  Qed.

  Lemma control_through : forall degree values a b f,
      (1 < degree)%nat -> length (points degree) = degree -> distinct (points degree) -> ~ a == b ->
      length values = (length (m_u m) * degree)%nat ->
      make_control_function points F m degree values a b = Ok f ->
      through (points degree) (length (m_u m)) values a b f.
  Proof.
    intros degree values a b f Hd Lp Dp Nab Lv Hf j p Hj t Ht.
    pose proof (control_value degree values a b f) as V. cbv zeta in V.
    pose proof (w_C08_parameter_count points (m_tau m) (length (m_u m)) degree (S (Nat.max (m_t m) (m_tau m))) false) as [Pc Pn]. cbv zeta in Pc, Pn.
    pose proof (fun env i => w_C08_parameter_layout F env points (m_tau m) (length (m_u m)) degree (S (Nat.max (m_t m) (m_tau m))) false i j) as Lay.
    cbv zeta in Lay.
    assert (Ep : snd (create_polynomial_approximation points (m_tau m) (length (m_u m)) degree (S (Nat.max (m_t m) (m_tau m))) false) = vec_points (S (Nat.max (m_t m) (m_tau m))) (length (m_u m)) degree) by reflexivity.
    assert (Lpol : length (fst (create_polynomial_approximation points (m_tau m) (length (m_u m)) degree (S (Nat.max (m_t m) (m_tau m))) false)) = length (m_u m)).
    { unfold create_polynomial_approximation. cbn [andb fst]. destruct (Nat.eqb_spec degree 1); [lia|]. apply combination_length. lia. }
    destruct (create_polynomial_approximation _ _ _ _ _ _) as [pol par]. cbn [fst snd andb] in *. subst par.
    specialize (V ltac:(lia) Hf). eexists. split; [apply V|]. split; [rewrite map_length; exact Lpol|].
    set (env := assign (upd (fun s => if Nat.eqb s (m_t m) then t else 0) (m_tau m) ((t - a) / (b - a)))
                  (vec_points (S (Nat.max (m_t m) (m_tau m))) (length (m_u m)) degree) values).
    intros i Hi. assert (Jn : (j < length (points degree))%nat) by (apply nth_error_Some; congruence).
    assert (Et : env (m_tau m) == nth j (interpolation_points points degree false) 0).
    { unfold env. rewrite assign_notin by (apply par_fresh; lia). unfold upd. rewrite Nat.eqb_refl.
      unfold interpolation_points. rewrite (nth_error_nth _ _ 0 Hj). rewrite Ht. field. apply h_nonzero. exact Nab. }
    destruct (Lay env i Hd Lp Dp Hi Jn Et) as [_ Lay'].
    rewrite (nth_indep _ 0 (eval F env (EConst 0))) by (rewrite map_length, Lpol; exact Hi).
    rewrite map_nth. rewrite Lay'. unfold env at 1.
    assert (Hk : (j * length (m_u m) + i < length (vec_points (S (Nat.max (m_t m) (m_tau m))) (length (m_u m)) degree))%nat).
    { rewrite Pc. assert ((S j) * length (m_u m) <= degree * length (m_u m))%nat by (apply Nat.mul_le_mono_r; lia). nia. }
    rewrite (assign_nth _ _ _ (j * length (m_u m) + i)%nat _ 0); [reflexivity|exact Pn|lia|].
    apply nth_error_nth'. exact Hk.
  Qed.

  Lemma control_constant : forall values a b f, length values = length (m_u m) ->
      make_control_function points F m 1 values a b = Ok f -> constant values f.
  Proof.
    intros values a b f L Hf t. pose proof (control_value 1 values a b f) as V. cbv zeta in V.
    pose proof (fun env i => w_C08_degree_one_constant F env points (m_tau m) (length (m_u m)) (S (Nat.max (m_t m) (m_tau m))) false i) as Lay.
    pose proof (w_C08_parameter_count points (m_tau m) (length (m_u m)) 1 (S (Nat.max (m_t m) (m_tau m))) false) as [_ Pn]. cbv zeta in Pn.
    destruct (create_polynomial_approximation _ _ _ _ _ _) as [pol par]. cbn [snd] in Pn.
    destruct (Lay (fun _ => 0) O) as [L1 [L2 _]]. specialize (V ltac:(lia) Hf t). eexists. split; [exact V|].
    set (env := assign _ par values). apply Forall2_Qnth; [rewrite map_length; lia|].
    rewrite map_length. intros i Hi. destruct (Lay env i) as [_ [_ Lay']].
    rewrite (nth_indep _ 0 (eval F env (EConst 0))) by (rewrite map_length; exact Hi). rewrite map_nth.
    rewrite Lay' by lia. unfold env. rewrite (assign_nth _ _ _ i _ 0); [reflexivity|exact Pn|lia|]. apply nth_error_nth'. lia.
  Qed.

  (** One value for several parameters: every component is constant. *)
  Lemma control_broadcast : forall degree v a b f,
      (1 < degree)%nat -> length (points degree) = degree -> distinct (points degree) ->
      length (m_u m) <> O ->
      make_control_function points F m degree [v] a b = Ok f -> constant (repeat v (length (m_u m))) f.
  Proof.
    intros degree v a b f Hd Lp Dp Nu Hf t.
    assert (Lpar : length (vec_points (S (Nat.max (m_t m) (m_tau m))) (length (m_u m)) degree) = (length (m_u m) * degree)%nat) by apply vec_points_length.
    assert (Hf' : make_control_function points F m degree (repeat v (length (m_u m) * degree)) a b = Ok f).
    { rewrite <- Hf. unfold make_control_function. cbn [create_polynomial_approximation andb]. rewrite repeat_length, Lpar, Nat.eqb_refl.
      cbn [length]. destruct (Nat.eqb_spec 1 (length (m_u m) * degree)); [nia|]. reflexivity. }
    pose proof (control_value degree (repeat v (length (m_u m) * degree)) a b f) as V. cbv zeta in V.
    cbn [create_polynomial_approximation andb] in V. rewrite repeat_length, Lpar in V. specialize (V eq_refl Hf' t).
    eexists. split; [exact V|]. destruct (Nat.eqb_spec degree 1) as [X|_]; [lia|].
    set (env := assign _ _ _).
    assert (Lc : length (combination (util_basis points (m_tau m) degree false) (S (Nat.max (m_t m) (m_tau m))) (length (m_u m)) degree degree) = length (m_u m)).
    { apply combination_length. lia. }
    apply Forall2_Qnth; [rewrite map_length, repeat_length; exact Lc|].
    rewrite map_length, Lc. intros i Hi.
    rewrite (nth_indep _ 0 (eval F env (EConst 0))) by (rewrite map_length, Lc; exact Hi). rewrite map_nth.
    eapply Qeq_trans; [apply combination_nth; [lia|exact Hi]|].
    assert (Er : nth i (repeat v (length (m_u m))) 0 = v).
    { rewrite (nth_indep _ 0 v) by (rewrite repeat_length; exact Hi). apply nth_repeat. }
    rewrite Er.
    pose proof (w_C07_sums_to_one F env points degree false (m_tau m)) as S1. cbv zeta in S1.
    specialize (S1 Dp). assert (Np : interpolation_points points degree false <> []) by (cbn; intros X; rewrite X in Lp; cbn in Lp; lia).
    specialize (S1 Np).
    pose proof (w_C07_one_at_own_zero_at_others F env points degree false (m_tau m)) as [Lb _]; [exact Dp|]. cbn [interpolation_points] in Lb. rewrite Lp in Lb.
    unfold terms. rewrite (qsum_scaled v _ (fun j => eval F env (nth j (util_basis points (m_tau m) degree false) (EConst 0)))).
    - pose proof (qsum_map_nth (util_basis points (m_tau m) degree false) (eval F env)) as Q1. rewrite Lb in Q1. unfold terms in Q1.
      rewrite <- Q1, S1. ring.
    - intros j Hj. apply in_seq in Hj. unfold env at 2.
      rewrite (assign_nth _ _ _ (j * length (m_u m) + i)%nat _ v); [|apply vec_points_NoDup|rewrite repeat_length; exact Lpar|].
      + rewrite nth_repeat. ring.
      + rewrite nth_error_nth' with (d := O) by (rewrite vec_points_length; nia). f_equal. apply vec_points_nth; lia.
  Qed.

  Lemma control_refused : forall degree values a b,
      length values <> 1%nat -> length values <> (length (m_u m) * degree)%nat ->
      make_control_function points F m degree values a b = Raise CasadiError.
  Proof.
    intros degree values a b H1 H2. unfold make_control_function.
    cbn [create_polynomial_approximation andb]. rewrite vec_points_length.
    destruct (Nat.eqb_spec (length values) (length (m_u m) * degree)); [contradiction|].
    destruct values as [|v [|w l]]; [reflexivity|contradiction H1; reflexivity|reflexivity].
  Qed.
End Function.

(** ** Estimates *)
Lemma nth_Forall2 : forall (A B : Type) (R : A -> B -> Prop) u v, Forall2 R u v ->
    forall i a b, (i < length u)%nat -> R (nth i u a) (nth i v b).
Proof.
  intros A B R u v H. induction H as [|x y u v Hxy H IH]; intros i a b Hi; [cbn in Hi; lia|].
  destruct i as [|i]; cbn; [exact Hxy|]. apply IH. cbn in Hi. lia.
Qed.
Lemma nth_firstn : forall (A : Type) n (l : list A) i d, (i < n)%nat -> nth i (firstn n l) d = nth i l d.
Proof.
  intros A n. induction n as [|n IH]; intros [|a l] i d H; try lia; [reflexivity|]. destruct i as [|i]; [reflexivity|].
  cbn. apply IH. lia.
Qed.
Lemma ideal_states : forall default integrate defaults F w_x w_m c,
    sized_integrator integrate (length (m_y (f_model c))) -> fitting c -> f_noise c = false -> observes_states c ->
    forall s op s', reached default integrate defaults F w_x w_m c s ->
      plant_step default integrate defaults F w_x w_m c op s = (s', Ok tt) ->
      Forall2 Qeq (fst (ideal_estimate (length (m_x (f_model c))) (a_measurement s'))) (a_x s').
Proof.
  intros default integrate defaults F w_x w_m c Si Fit Nn [Lc Ob] s op s' R H.
  assert (Sn : f_noise c = true -> sized_noise w_x w_m c) by congruence.
  destruct (step_sound default integrate defaults F w_x w_m c Si Fit Sn op s s' (reached_recording default integrate defaults F w_x w_m c Si Fit Sn s R) H)
    as [_ [_ [Rc [before [t [x [u [n [y [v [clean [m [n' [Hs [Hp [_ [Pr [Di [Em [_ [Sy _]]]]]]]]]]]]]]]]]]]]].
  assert (Lx : length (a_x s') = length (m_x (f_model c))) by apply Rc.
  assert (Hx : a_x s' = x) by (unfold point_of in Hp; congruence). rewrite Hx in *.
  assert (Ly : length y = length (m_y (f_model c))).
  { clear - Si Hs. remember (before ++ [mkRow t x y v]) as rows eqn:Er. remember (t, x, u, n) as p eqn:Ep.
    revert before Er. induction Hs as [p|d l t0 x0 u0 n0 u' x' y' v' x'' n' rows p Hh Hf Hd Hs IH]; intros before Er.
    - destruct before; discriminate.
    - destruct before as [|b before].
      + cbn in Er. assert (y' = y) by congruence. subst y'. destruct Hf as [theta [_ [Ed _]]].
        unfold dae_simulate in Ed. destruct (Qeq_bool _ _); [discriminate|].
        repeat match type of Ed with context [match ?z with _ => _ end] => let X := fresh "X" in destruct z eqn:X; try discriminate end;
        eapply Si; exact Ed.
      + cbn in Er. injection Er as _ Er. exact (IH Ep before Er). }
  unfold disturbed in Di. rewrite Nn in Di. destruct Di as [-> _]. rewrite Em. cbn [ideal_estimate fst].
  assert (Lm : length clean = length (f_c c)) by (symmetry; exact (Forall2_len _ _ _ _ _ Pr)).
  apply Forall2_Qnth; [rewrite firstn_length; lia|]. rewrite firstn_length. intros i Hi.
  rewrite nth_firstn by lia. pose proof (nth_Forall2 _ _ _ _ _ Pr i [] 0%Q ltac:(lia)) as D. cbv beta in D.
  rewrite D, Ob by (try rewrite app_length; lia). rewrite app_nth1 by lia. reflexivity.
Qed.

(** ** Witnesses *)
Lemma start_of_sample :
  exists f, make_control_function radau_two (fun _ q => q) tank_model 2 [2; 4]%Q 0 2 = Ok f /\
    match f 0%Q with Ok [u] => (u == 1)%Q | _ => False end /\
    match f ((1 # 3) * 2)%Q with Ok [u] => (u == 2)%Q | _ => False end.
Proof. eexists. split; [reflexivity|]. split; vm_compute; reflexivity. Qed.
Lemma indefinite :
  forall E estimate default integrate defaults F w_x w_m points solve breakpoint c (s : mpc E) r,
    run E estimate default integrate defaults F w_x w_m points solve breakpoint c 0 s r <->
    run E estimate default integrate defaults F w_x w_m points solve breakpoint c 1 s r.
Proof. intros. rewrite !run_outcome. reflexivity. Qed.
Lemma tank_runs :
  forall k, cart_method 2 2 = Ok k ->
  let c := tank_mpc_config k in
  let round := cycle unit tank_estimate (fun _ _ => ""%string) euler [] (fun _ q => q) (fun _ => []) (fun _ => []) radau_two
                 (tank_solve (collocation_size k)) (Ok tt) c in
  exists p s, new_plant (fun _ _ => ""%string) (g_plant c) [3]%Q None None = Ok p /\
    rounds round 2 (mkMpc p None (Some [0; 9]%Q) 0 None tt) s /\
    map (fun q => (Qred (fst q), map Qred (snd q))) (stored "x" (b_plant s)) =
      [(0, [3]); (1, [5]); (2, [7]); (3, [5]); (4, [3])]%Q /\
    b_p s = Some [7; 9]%Q /\ b_iteration s = 2%nat /\ b_guess s = Some (repeat (1 * (11 # 10))%Q (collocation_size k)).
Proof.
  intros k Hk. assert (K : k = match cart_method 2 2 with Ok k => k | Raise _ => k end) by (rewrite Hk; reflexivity).
  clear Hk. set (q := k) in K at 2. clearbody q. subst k. cbv zeta.
  eexists. eexists. split; [vm_compute; reflexivity|]. split.
  { eexists. split; [vm_compute; reflexivity|]. eexists. split; [vm_compute; reflexivity|]. reflexivity. }
  vm_compute. repeat split; reflexivity.
Qed.

Lemma tank_repeats :
  forall k, cart_method 2 2 = Ok k ->
  let c := tank_mpc_config k in
  let round := cycle unit tank_estimate (fun _ _ => ""%string) euler [] (fun _ q => q) (fun _ => []) (fun _ => []) radau_two
                 (tank_solve (collocation_size k)) (Ok tt) c in
  exists p s s', new_plant (fun _ _ => ""%string) (g_plant c) [4]%Q None None = Ok p /\
    rounds round 1 (mkMpc p None (Some [0; 9]%Q) 0 None tt) s /\
    run_fixed_control_with_estimator unit tank_estimate (fun _ _ => ""%string) euler [] (fun _ q => q) (fun _ => []) (fun _ => [])
      radau_two c [100]%Q 2 s = (s', Ok tt) /\
    map (fun q => (Qred (fst q), map Qred (snd q))) (stored "x" (b_plant s')) =
      [(0, [4]); (1, [5]); (2, [6]); (3, [7]); (4, [8]); (5, [9]); (6, [10])]%Q /\
    b_iteration s' = 3%nat.
Proof.
  intros k Hk. assert (K : k = match cart_method 2 2 with Ok k => k | Raise _ => k end) by (rewrite Hk; reflexivity).
  clear Hk. set (q := k) in K at 2. clearbody q. subst k. cbv zeta.
  eexists. eexists. eexists. split; [vm_compute; reflexivity|]. split.
  { eexists. split; [vm_compute; reflexivity|]. reflexivity. }
  split; [vm_compute; reflexivity|].
  vm_compute. repeat split; reflexivity.
Qed.

(** ** Corollaries *)
Lemma run_rounds :
  forall E estimate default integrate defaults F w_x w_m points solve breakpoint c n (s : mpc E) r, (1 <= n)%Z ->
    run E estimate default integrate defaults F w_x w_m points solve breakpoint c n s r <->
    outcome (cycle E estimate default integrate defaults F w_x w_m points solve breakpoint c) (Z.to_nat n) s r.
Proof.
  intros E estimate default integrate defaults F w_x w_m points solve breakpoint c n s r Hn.
  rewrite run_outcome. replace (planned n) with (Z.to_nat n); [reflexivity|]. unfold planned. lia.
Qed.
Lemma run_ends :
  forall E estimate default integrate defaults F w_x w_m points solve breakpoint c n (s : mpc E),
    (exists r, run E estimate default integrate defaults F w_x w_m points solve breakpoint c n s r) /\
    forall r r', run E estimate default integrate defaults F w_x w_m points solve breakpoint c n s r ->
                 run E estimate default integrate defaults F w_x w_m points solve breakpoint c n s r' -> r = r'.
Proof.
  intros E estimate default integrate defaults F w_x w_m points solve breakpoint c n s. split.
  - destruct (outcome_total _ (cycle E estimate default integrate defaults F w_x w_m points solve breakpoint c) (planned n) s) as [r Hr].
    exists r. apply run_outcome. exact Hr.
  - intros r r' H H'. apply run_outcome in H. apply run_outcome in H'. exact (outcome_unique _ _ _ _ _ _ H H').
Qed.
Lemma counts :
  forall E estimate default integrate defaults F w_x w_m points solve breakpoint c n (s s' : mpc E),
    rounds (cycle E estimate default integrate defaults F w_x w_m points solve breakpoint c) n s s' ->
    b_iteration s' = (b_iteration s + n)%nat /\
    (a_t (b_plant s') == a_t (b_plant s) + q_of_nat n * (last (f_points (g_plant c)) 0 * f_t_s (g_plant c)))%Q.
Proof.
  intros E estimate default integrate defaults F w_x w_m points solve breakpoint c n s s' H.
  split; [exact (iterations _ _ _ _ _ _ _ _ _ _ _ _ _ _ _ H)|exact (rounds_time _ _ _ _ _ _ _ _ _ _ _ _ _ _ _ H)].
Qed.
Lemma fixed_control :
  forall E default integrate defaults F w_x w_m points c u v n (s : mpc E),
    run_fixed_control E default integrate defaults F w_x w_m points c u n s =
    run_fixed_control E default integrate defaults F w_x w_m points c v n s /\
    (b_last s = None -> (0 < n)%nat ->
     snd (run_fixed_control E default integrate defaults F w_x w_m points c u n s) = Raise TypeError).
Proof. intros. split; [apply fixed_ignored|apply fixed_fresh]. Qed.
Lemma nth_error_same : forall (A : Type) (a b : list A), (forall i, nth_error a i = nth_error b i) -> a = b.
Proof.
  intros A a. induction a as [|x a IH]; intros [|y b] H; [reflexivity|discriminate (H O)|discriminate (H O)|].
  f_equal; [specialize (H O); cbn in H; congruence|]. apply IH. intros i. exact (H (S i)).
Qed.
Lemma moved_unique : forall (A : Type) (l a b : list A), moved_forward l a -> moved_forward l b -> a = b.
Proof.
  intros A l a b [La [Ha Ea]] [Lb [Hb Eb]]. apply nth_error_same. intros i.
  destruct (lt_dec (i + 1) (length l)) as [X|X]; [rewrite Ha, Hb by exact X; reflexivity|].
  destruct (Nat.eq_dec i (length l - 1)) as [->|N]; [congruence|].
  rewrite (proj2 (nth_error_None a i)) by lia. rewrite (proj2 (nth_error_None b i)) by lia. reflexivity.
Qed.
Lemma factor_shows :
  forall k (z : traj Q) g i q, (2 <= k_elements k)%nat -> collocation_shape k z ->
    step Collocation k (flatten z) = Ok g -> nth_error g i = Some q -> ~ (q == 0)%Q ->
    forall z', collocation_shape k z' -> next_trajectory z z' -> ~ Forall2 Qeq g (flatten z').
Proof.
  intros k z g i q Hk Hs Hg Hi Hq z' Hz' Hn Hf.
  destruct (warm_start k z Hk Hs) as [z2 [_ [Hn2 Es]]]. rewrite Es in Hg.
  assert (z2 = z').
  { destruct z2, z', Hn as [A1 [A2 [A3 [A4 [A5 A6]]]]], Hn2 as [B1 [B2 [B3 [B4 [B5 B6]]]]]. cbn in *.
    f_equal; try congruence; eapply moved_unique; eauto. }
  subst z2. assert (g = map (fun q => q * (11 # 10))%Q (flatten z')) by congruence. subst g. clear - Hi Hq Hf.
  rewrite nth_error_map in Hi. destruct (nth_error (flatten z') i) as [v|] eqn:Ev; [|discriminate]. cbn in Hi. injection Hi as <-.
  apply Hq. clear Hq. revert i Ev. remember (flatten z') as l eqn:El. clear El. induction l as [|a l IH]; intros i Ev; [destruct i; discriminate|].
  cbn in Hf. inversion Hf; subst. destruct i as [|i]; cbn in Ev; [|exact (IH H4 i Ev)]. injection Ev as ->. lra.
Qed.
Lemma two_inputs :
  forall points F m degree values a b,
    (2 <= length (m_u m))%nat -> (2 <= degree)%nat -> length values = length (m_u m) ->
    make_control_function points F m degree values a b = Raise CasadiError.
Proof. intros points F m degree values a b H1 H2 H3. apply control_refused; [lia|nia]. Qed.
Lemma radau_distinct : distinct (radau_two 2).
Proof.
  unfold distinct. intros i j Hi Hj E. cbn in Hi, Hj.
  destruct i as [|[|i]], j as [|[|j]]; try lia; cbn in E; exfalso; revert E; unfold Qeq; cbn; lia.
Qed.
Lemma radau_fits :
  length (radau_two 2) = 2%nat /\ distinct (radau_two 2) /\ ~ (0 == 2)%Q /\
  length [2; 4]%Q = (length (m_u tank_model) * 2)%nat /\
  exists f, make_control_function radau_two (fun _ q => q) tank_model 2 [2; 4]%Q 0 2 = Ok f.
Proof.
  split; [reflexivity|]. split; [exact radau_distinct|]. split; [lra|]. split; [reflexivity|]. eexists. reflexivity.
Qed.
Lemma tank_observes : forall k,
  observes_states (tank_config 2 [1 # 2; 1]%Q false) /\
  parameters (tank_mpc_config k) [7]%Q [] (Some [0; 9]%Q) (Some [7; 9]%Q).
Proof.
  intros k. split.
  - split; [cbn; lia|]. cbn. intros i v Hi Lv. destruct i; [|lia]. destruct v as [|a [|b [|d v]]]; try discriminate. cbn. ring.
  - exists (Some [7; 9]%Q). split; [|reflexivity]. cbn. right. exists [0; 9]%Q, [7; 9]%Q. split; [reflexivity|]. split; [reflexivity|].
    apply copied_next with (v := 7%Q) (p' := [7; 9]%Q); try reflexivity; [cbn; lia| |constructor].
    intros [|i] H; [congruence|reflexivity].
Qed.
Lemma cart_moves :
  forall k, cart_method 1 2 = Ok k ->
  exists z g, collocation_shape k z /\ (2 <= k_elements k)%nat /\
    r_x z = [[[0; 1]; [2; 3]]; [[4; 5]; [6; 7]]]%Q /\ r_u z = [[[8]]; [[9]]]%Q /\
    step Collocation k (flatten z) = Ok g /\
    firstn 8 (map Qred g) = map (fun q => Qred (q * (11 # 10))) [4; 5; 6; 7; 4; 5; 6; 7]%Q.
Proof.
  intros k Hk. assert (K : k = match cart_method 1 2 with Ok k => k | Raise _ => k end) by (rewrite Hk; reflexivity).
  clear Hk. set (q := k) in K at 2. clearbody q. subst k.
  exists (mkTraj [[[0; 1]; [2; 3]]; [[4; 5]; [6; 7]]] [[[1]]; [[2]]] [[[8]]; [[9]]] [] [1] [[3]; [4]])%Q.
  eexists. split; [|split; [vm_compute; lia|split; [reflexivity|split; [reflexivity|split; vm_compute; reflexivity]]]].
  vm_compute. repeat (split || constructor).
Qed.
Lemma mean_round :
  forall E estimate default integrate defaults F w_x w_m points solve breakpoint c (s s' : mpc E),
    cycle E estimate default integrate defaults F w_x w_m points solve breakpoint c s = (s', Ok tt) -> g_mean c = true ->
    NoDup (map snd (g_mean_indices c)) ->
    (g_covariance c = true -> forall j, In j (map snd (g_mean_indices c)) -> ~ In j (map snd (g_cov_indices c))) ->
    exists x cov, snd (estimate (b_estimator s) (a_t (b_plant s)) (a_measurement (b_plant s)) (a_u (b_plant s))) = Ok (x, cov) /\
      forall i j, In (i, j) (g_mean_indices c) -> exists b v, b_p s' = Some b /\ nth_error b j = Some v /\
        nth_error (if g_include_cost c then x ++ [0%Q] else x) i = Some v.
Proof.
  intros E estimate default integrate defaults F w_x w_m points solve breakpoint c s s' C Hm N D.
  apply cycle_ok in C. destruct C as [_ [x [cov [raw [r [g [pars [rest [f R]]]]]]]]]. cbv zeta in R.
  destruct R as [Ee [Hp _]]. exists x, cov. split; [rewrite Ee; reflexivity|]. intros i j I.
  destruct (mean_current F w_x w_m points solve c _ _ _ _ Hp Hm N D i j I) as [b [Hb [E1 E2]]].
  exists b. destruct (nth_error _ i) as [v|] in E1, E2 |- *; [|contradiction]. exists v. auto.
Qed.

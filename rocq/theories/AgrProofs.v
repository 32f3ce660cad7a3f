(** Proofs that the two ends of a connection keep the same multipliers. *)
From Coq Require Import String Permutation Lqa Lia.
From Verif Require Import Base UtilModel ExprModel SysModel NlpModel NlpSpec SimModel DiscModel ResModel NetModel DalModel ExoModel.
From Verif Require Import DalSpec ExoSpec AgrSpec BaseProofs UtilProofs DalProofs DalLoopProofs DalUpdateProofs DalMoreProofs ExoProofs.
Local Open Scope list_scope.
Local Open Scope nat_scope.

(** ** Results *)

Lemma result_dupdate : forall (e d : results) a, NoDup (map fst e) ->
  result_of (dupdate Nat.eqb d e) a = match result_of e a with Some r => Some r | None => result_of d a end.
Proof.
  unfold dupdate. induction e as [|[b q] e IH]; intros d a ND; simpl; [reflexivity|].
  inversion ND as [|? ? N0 ND']; subst. rewrite IH by exact ND'. simpl. rewrite result_dset.
  unfold result_of at 3. simpl. destruct (Nat.eqb_spec a b) as [Eb|Nb]; [subst b|].
  - destruct (result_of e a) as [r|] eqn:Er; [|reflexivity].
    exfalso. apply N0. apply (result_of_in _ _ _ ND') in Er. apply (in_map fst) in Er. exact Er.
  - reflexivity.
Qed.
Lemma filter_keys : forall (f : addr * node_result -> bool) l, NoDup (map fst l) -> NoDup (map fst (filter f l)).
Proof.
  intros f. induction l as [|[a r] l IH]; intros H; [exact H|]. inversion H as [|? ? N0 ND]; subst. cbn.
  destruct (f (a, r)); [|apply IH, ND]. cbn. constructor; [|apply IH, ND].
  intros X. apply N0. apply in_map_iff in X. destruct X as [y [Y1 Y2]]. apply filter_In in Y2. rewrite <- Y1. apply in_map, Y2.
Qed.
Lemma result_filter : forall (l : results) a, NoDup (map fst l) ->
  result_of (filter (fun ar => nr_success (snd ar)) l) a =
  match result_of l a with Some r => if nr_success r then Some r else None | None => None end.
Proof.
  intros l a ND. pose proof (filter_keys (fun ar => nr_success (snd ar)) l ND) as ND'.
  destruct (result_of (filter _ l) a) as [q|] eqn:E.
  - apply (result_of_in _ _ _ ND') in E. apply filter_In in E. destruct E as [E1 E2]. cbn in E2.
    apply (result_of_in _ _ _ ND) in E1. rewrite E1, E2. reflexivity.
  - destruct (result_of l a) as [r|] eqn:Er; [|reflexivity]. destruct (nr_success r) eqn:Es; [|reflexivity].
    exfalso. apply (result_of_in _ _ _ ND) in Er.
    assert (X : In (a, r) (filter (fun ar => nr_success (snd ar)) l)) by (apply filter_In; split; [exact Er|exact Es]).
    apply (result_of_in _ _ _ ND') in X. congruence.
Qed.

Section Agree.
  Variable S : Type.
  Variables used next : S -> nat -> nat -> nat -> Q.
  Variable solve : addr -> S -> theta Q -> option (list Q) -> S * res node_result.
  Variable update : addr -> S -> theta Q -> list Q -> exogenous -> S * res (list Q).
  Variable primal_dual : addr -> S -> theta Q -> list Q -> exogenous -> S * res (Q * ext * list Q).
  Variable mu_of : S -> list Q.
  Variable set_mu : Q -> S -> S * res unit.
  Variable put_mu : list Q -> S -> S.
  Variables (opts : dal_options) (net : dnet) (blocks : dict nat (list addr)).
  Variable draw : nat -> list nat.
  Notation dstate := (dstate S).
  Notation methods l := (d_method S (l_state S l)).
  Notation last l := (d_last S (l_state S l)).

  (** ** Sweeps *)

  Lemma serial_found : forall l found (s s' : dstate) f, NoDup (map fst found) ->
    solve_serial_nodes S solve opts net l found s = (s', Ok f) -> NoDup (map fst f).
  Proof.
    induction l as [|a l IH]; intros found s s' f ND H; cbn [solve_serial_nodes] in H.
    - unfold cret in H. assert (f = found) by congruence. subst. exact ND.
    - unfold cbind in H. destruct (solve_serial_node S solve opts net a found s) as [s1 [f1|]] eqn:E1; [|discriminate].
      apply (fun X => IH _ _ _ _ X H). unfold solve_serial_node, cbind, reading in E1.
      destruct (node_theta opts net (d_last S s) a) as [th|]; [|discriminate].
      destruct (on_node S a (fun m => solve a m th (warm_start (d_last S s) a)) s) as [s2 [r|]]; [|discriminate].
      destruct (nr_success r); unfold cmodify, cret in E1.
      + assert (f1 = dset Nat.eqb a r found) by congruence. subst. apply (dset_nodup S solve update primal_dual draw), ND.
      + assert (f1 = found) by congruence. subst. exact ND.
  Qed.
  Lemma distributed_found : forall bs found (s s' : dstate) f, NoDup (map fst found) ->
    solve_distributed_blocks S solve opts net bs found s = (s', Ok f) -> NoDup (map fst f).
  Proof.
    induction bs as [|b bs IH]; intros found s s' f ND H; cbn [solve_distributed_blocks] in H.
    - unfold cret in H. assert (f = found) by congruence. subst. exact ND.
    - unfold cbind in H. destruct (solve_distributed_block S solve opts net b found s) as [s1 [f1|]] eqn:E1; [|discriminate].
      apply (fun X => IH _ _ _ _ X H). unfold solve_distributed_block, cbind, reading in E1.
      destruct (res_map (job_of opts net (d_last S s)) b) as [jobs|]; [|discriminate].
      destruct (call_all S solve jobs s []) as [s2 acc]. destruct (read_all acc) as [rs|]; [|discriminate].
      unfold cret in E1. assert (f1 = dupdate Nat.eqb found (filter (fun ar => nr_success (snd ar)) rs)) by congruence.
      subst. apply (dupdate_nodup S solve update primal_dual draw), ND.
  Qed.

  Lemma chosen_blocks : forall k, all_blocks opts blocks draw ->
    exists bs, block_iterator opts blocks draw k = Ok bs /\ Permutation bs (map snd blocks).
  Proof.
    intros k [H|[H P]].
    - exists (map snd blocks). split; [|reflexivity]. unfold block_iterator. rewrite H. reflexivity.
    - apply sampled_blocks; [exact H|apply P].
  Qed.
  Lemma concat_perm : forall {A} (l l' : list (list A)), Permutation l l' -> Permutation (concat l) (concat l').
  Proof.
    intros A l l' P. induction P; cbn; [constructor|apply Permutation_app_head; assumption| |eapply Permutation_trans; eassumption].
    rewrite !app_assoc. apply Permutation_app_tail, Permutation_app_comm.
  Qed.

  Hypothesis Hblocks : all_blocks opts blocks draw.
  Hypothesis Hcovers : covers net blocks.

  (** Every node is solved once, with results from before or after the sweep. *)
  Lemma sweep_all : forall l l' o, sweep S solve opts net blocks draw l = (l', Ok o) ->
    last l' = l_results S l' /\
    (do_distributed opts = true -> forall a, In a (dn_nodes net) -> In a (l_proxies S l')) /\
    forall a, In a (dn_nodes net) -> exists th r seen,
      given opts net seen a th /\ solve a (methods l a) th (started (last l) a) = (methods l' a, Ok r) /\
      (nr_success r = true -> result_of (l_results S l') a = Some r) /\
      forall b, result_of seen b = result_of (last l) b \/ result_of seen b = result_of (l_results S l') b.
  Proof.
    intros l l' o H. unfold sweep, cbind, cres in H.
    destruct (chosen_blocks (l_sweeps S l) Hblocks) as [bs [Eb P]]. rewrite Eb in H.
    assert (PC : Permutation (concat bs) (concat (map snd blocks))) by apply (concat_perm _ _ P).
    assert (ND : NoDup (concat bs)) by (apply (Permutation_NoDup (Permutation_sym PC)), Hcovers).
    assert (IN : forall a, In a (dn_nodes net) -> In a (concat bs)).
    { intros a Ha. apply (Permutation_in _ (Permutation_sym PC)). apply Hcovers, Ha. }
    unfold in_loop in H. destruct (solve_nodes S solve opts net bs (l_state S l)) as [s [new|]] eqn:En; [|discriminate].
    unfold cmodify in H. assert (E : fst (l', Ok o) = l') by reflexivity. rewrite <- H in E. cbn [fst] in E. clear H. subst l'.
    cbn [l_results l_state l_sweeps l_proxies d_last d_method set_last].
    split; [reflexivity|]. split.
    { intros Hd a Ha. rewrite Hd. unfold add_proxies. pose proof (IN a Ha) as Hi.
      assert (X : forall q p, In a p \/ In a q ->
        In a (fold_left (fun acc a => if memb Nat.eqb a acc then acc else acc ++ [a]) q p)).
      { induction q as [|b q IH]; intros p [X|X]; cbn; try (exact X || destruct X as [X|X]); try contradiction.
        - apply IH. left. destruct (memb Nat.eqb b p); [exact X|apply in_or_app; left; exact X].
        - apply IH. left. subst b. destruct (memb Nat.eqb a p) eqn:M; [apply memb_iff, M|apply in_or_app; right; left; reflexivity].
        - apply IH. right. exact X. }
      apply X. right. exact Hi. }
    unfold solve_nodes in En. destruct (do_distributed opts) eqn:Hd.
    - destruct (parallel_sweep S solve opts net _ _ _ _ ND En) as [A [_ C]].
      assert (NF : NoDup (map fst new)) by (apply (distributed_found bs [] (l_state S l) s new (NoDup_nil _)); exact En).
      intros a Ha. destruct (C a (IN a Ha)) as [th [r [C1 [C2 C3]]]]. exists th, r, (last l).
      split; [exact C1|]. split; [exact C2|]. split; [|intros b; left; reflexivity].
      intros Hs. rewrite result_dupdate by apply filter_keys, NF. rewrite result_filter by exact NF. rewrite C3. unfold kept.
      rewrite Hs, Hs. reflexivity.
    - destruct (serial_sweep S solve opts net _ _ _ _ ND En) as [_ C].
      assert (NF : NoDup (map fst new)) by (apply (serial_found (concat bs) [] (l_state S l) s new (NoDup_nil _)); exact En).
      intros a Ha. destruct (in_split _ _ (IN a Ha)) as [pre [post Es]]. destruct (C pre a post Es) as [th [r [C1 [C2 [C3 C4]]]]].
      set (seen := filter (fun ar => memb Nat.eqb (fst ar) pre) (d_last S s) ++ filter (fun ar => negb (memb Nat.eqb (fst ar) pre)) (last l)).
      assert (Seen : forall b, result_of seen b = if memb Nat.eqb b pre then result_of (d_last S s) b else result_of (last l) b).
      { intros b. unfold seen, result_of. generalize (d_last S s) as u. generalize (last l) as v. clear.
        intros v u. induction u as [|[c q] u IH]; cbn.
        - destruct (memb Nat.eqb b pre) eqn:M; induction v as [|[c q] v IHv]; cbn; try reflexivity.
          + destruct (memb Nat.eqb c pre) eqn:M2; cbn; [exact IHv|]. destruct (Nat.eqb_spec b c); [congruence|exact IHv].
          + destruct (memb Nat.eqb c pre) eqn:M2; cbn; [|destruct (Nat.eqb b c); [reflexivity|exact IHv]].
            destruct (Nat.eqb_spec b c); [congruence|exact IHv].
        - destruct (memb Nat.eqb c pre) eqn:M2; cbn; destruct (Nat.eqb_spec b c); try (subst c; rewrite M2 in *; exact IH || reflexivity); exact IH. }
      exists th, r, seen. split; [|split; [exact C2|split]].
      + apply C1; intros b Hb; rewrite Seen; [apply memb_iff in Hb|apply memb_out in Hb]; rewrite Hb; reflexivity.
      + intros Hs. rewrite result_dupdate by apply filter_keys, NF. rewrite result_filter by exact NF. rewrite C4. unfold kept.
        rewrite Hs, Hs. reflexivity.
      + intros b. rewrite Seen. destruct (memb Nat.eqb b pre) eqn:M; [|left; reflexivity].
        assert (Hb : In b (concat bs)) by (rewrite Es; apply in_or_app; left; apply memb_iff, M).
        destruct (in_split _ _ Hb) as [pre' [post' Es']]. destruct (C pre' b post' Es') as [thb [rb [_ [_ [B3 B4]]]]].
        rewrite B3. unfold kept in *. destruct (nr_success rb) eqn:Hs; [|left; reflexivity]. right.
        rewrite result_dupdate by apply filter_keys, NF. rewrite result_filter by exact NF. rewrite B4, Hs. reflexivity.
  Qed.

  (** ** Agreement *)

  Variable real : addr -> node_result -> Prop.
  Variables grow : Q -> Q.
  Hypothesis Hgrow : forall x y, (x == y)%Q -> (grow x == grow y)%Q.
  Hypothesis Hsolve : uses_next S used next mu_of net real solve.
  Hypothesis Hupdate : raises S used next mu_of opts net real grow update.
  Hypothesis Hresidual : raises S used next mu_of opts net real (fun q => q) primal_dual.
  Hypothesis Hset : sets S next mu_of set_mu.
  Hypothesis Hput : puts S next mu_of put_mu.
  Hypothesis Hknown : forall a, In a (dn_nodes net) -> Forall (far_known net) (far_ends net a).

  Notation agreed := (agreed S next mu_of opts net).

  (** Every node has a fresh result of a solution with the multipliers it has. *)
  Definition fresh (l : loop S) : Prop :=
    last l = l_results S l /\
    (do_distributed opts = true -> forall a, In a (dn_nodes net) -> In a (l_proxies S l)) /\
    forall a, In a (dn_nodes net) -> (exists r, result_of (l_results S l) a = Some r /\ real a r) /\
      forall el k i, (used (methods l a) el k i == next (methods l a) el k i)%Q.

  Lemma sweep_agreed : forall l l' o, agreed (methods l) -> sweep S solve opts net blocks draw l = (l', Ok o) ->
    agreed (methods l') /\ fresh l'.
  Proof.
    intros l l' o [A1 A2] H. destruct (sweep_all _ _ _ H) as [E [Px C]].
    assert (X : forall a, In a (dn_nodes net) -> (exists r, result_of (l_results S l') a = Some r /\ real a r) /\
      mu_of (methods l' a) = mu_of (methods l a) /\
      forall el k i, (used (methods l' a) el k i == next (methods l a) el k i)%Q /\ (next (methods l' a) el k i == next (methods l a) el k i)%Q).
    { intros a Ha. destruct (C a Ha) as [th [r [seen [_ [C2 [C3 _]]]]]]. destruct (Hsolve _ _ _ _ _ _ Ha C2) as [S1 [S2 [S3 S4]]].
      split; [exists r; split; [apply C3, S1|exact S2]|]. split; [exact S3|exact S4]. }
    split; [split|split; [exact E|split; [exact Px|]]].
    - intros a Ha. destruct (X a Ha) as [_ [-> _]]. apply A1, Ha.
    - intros a i b j Ha Hb M. destruct (X a Ha) as [_ [Ea Na]]. destruct (X b Hb) as [_ [Eb Nb]]. rewrite Ea, Eb.
      destruct (A2 a i b j Ha Hb M) as [W N]. split; [exact W|]. intros el k He Hk.
      rewrite (proj2 (Na el k i)), (proj2 (Nb el k j)). apply (N el k He Hk).
    - intros a Ha. destruct (X a Ha) as [R [_ N]]. split; [exact R|]. intros el k i. destruct (N el k i) as [N1 N2]. rewrite N1, N2. reflexivity.
  Qed.
  Lemma inner_agreed : forall n q l l' os, agreed (methods l) -> inner_loop S solve opts net blocks draw (Datatypes.S n) q l = (l', Ok os) ->
    agreed (methods l') /\ fresh l'.
  Proof.
    induction n as [|n IH]; intros q l l' os A H; cbn [inner_loop] in H; unfold cbind in H;
      destruct (sweep S solve opts net blocks draw l) as [l1 [o|]] eqn:E1; try discriminate;
      destruct (sweep_agreed _ _ _ A E1) as [A1 F1]; destruct (no_decrease opts o q).
    - unfold cret in H. assert (l' = l1) by congruence. subst. split; assumption.
    - unfold cret in H. assert (l' = l1) by congruence. subst. split; assumption.
    - unfold cret in H. assert (l' = l1) by congruence. subst. split; assumption.
    - change (cbind (inner_loop S solve opts net blocks draw (Datatypes.S n) (Fin o)) (fun os => cret (o :: os)) l1 = (l', Ok os)) in H.
      unfold cbind in H.
      destruct (inner_loop S solve opts net blocks draw (Datatypes.S n) (Fin o) l1) as [l2 [os2|]] eqn:E2; [|discriminate].
      unfold cret in H. assert (l' = l2) by congruence. subst l2. apply (IH _ _ _ _ A1 E2).
  Qed.

  Lemma known_value : forall lst el k f, far_known net f -> exists q, far_value net lst el k f q.
  Proof.
    intros lst el k [b v|b v] [Hi Hn]; apply In_nth_error in Hi; destruct Hi as [i Hi]; eexists; exists i; (split; [split; assumption|reflexivity]).
  Qed.

  (** One call of a method that raises multipliers, at both ends. *)
  Lemma raised_agreed : forall {E} g (step : addr -> S -> theta Q -> list Q -> exogenous -> S * res E) lst m m' es,
    (forall x y, (x == y)%Q -> (g x == g y)%Q) -> raises S used next mu_of opts net real g step ->
    (forall a, In a (dn_nodes net) -> (exists r, result_of lst a = Some r /\ real a r) /\
       forall el k i, (used (m a) el k i == next (m a) el k i)%Q) ->
    agreed m -> updated step opts net lst lst m m' es -> agreed m'.
  Proof.
    intros E g step lst m m' es Hg R F [A1 A2] [_ U].
    assert (Re : forall b q, In b (dn_nodes net) -> result_of lst b = Some q -> real b q).
    { intros b q Hb Hq. destruct (F b Hb) as [[r [R1 R2]] _]. assert (r = q) by congruence. subst. exact R2. }
    assert (X : forall a, In a (dn_nodes net) -> mu_of (m' a) = map g (mu_of (m a)) /\
      forall el k i own far v w, el < do_elements opts -> k < do_degree opts ->
        nth_error (own_ends net a) i = Some own -> nth_error (far_ends net a) i = Some far ->
        far_value net lst el k own v -> far_value net lst el k far w ->
        (next (m' a) el k i == next (m a) el k i + nth i (mu_of (m a)) 0 * difference own v w)%Q).
    { intros a Ha. destruct (F a Ha) as [[r [R1 R2]] N]. destruct (U a r R1) as [th [ex [e [U1 [U2 _]]]]].
      destruct (R lst a r (m a) th ex (m' a) e Ha R1 Re U1 U2) as [M V]. split; [exact M|].
      intros. rewrite (V el k i own far v w) by assumption. rewrite (N el k i). reflexivity. }
    split.
    - intros a Ha. destruct (X a Ha) as [-> _]. rewrite map_length. apply A1, Ha.
    - intros a i b j Ha Hb M. destruct (X a Ha) as [Ea Na]. destruct (X b Hb) as [Eb Nb]. destruct (A2 a i b j Ha Hb M) as [W N].
      destruct M as [v [w [M1 [M2 [M3 M4]]]]].
      assert (Li : i < length (mu_of (m a))) by (rewrite A1 by exact Ha; apply nth_error_Some; congruence).
      assert (Lj : j < length (mu_of (m b))) by (rewrite A1 by exact Hb; apply nth_error_Some; congruence).
      split.
      + rewrite Ea, Eb, !(nth_map_in g _ _ 0%Q) by assumption. apply Hg, W.
      + intros el k He Hk.
        assert (Kv : far_known net (FarInput a v)) by (pose proof (Hknown b Hb) as K; rewrite Forall_forall in K; apply K; eapply nth_error_In, M4).
        assert (Kw : far_known net (FarOutput b w)) by (pose proof (Hknown a Ha) as K; rewrite Forall_forall in K; apply K; eapply nth_error_In, M2).
        destruct (known_value lst el k _ Kv) as [x Hx]. destruct (known_value lst el k _ Kw) as [y Hy].
        rewrite (Na el k i _ _ x y He Hk M1 M2 Hx Hy), (Nb el k j _ _ y x He Hk M3 M4 Hy Hx). cbn [difference].
        rewrite W, (N el k He Hk). reflexivity.
  Qed.

  Notation upd := (update_parameters S update primal_dual mu_of set_mu put_mu opts net blocks).

  (** Equal weights keep the multipliers. *)
  Lemma levelled : forall q (m m' : addr -> S), agreed m ->
    (forall a, In a (dn_nodes net) -> mu_of (m' a) = repeat q (length (mu_of (m a))) /\ forall el k i, (next (m' a) el k i == next (m a) el k i)%Q) ->
    agreed m'.
  Proof.
    intros q m m' [A1 A2] H. split.
    - intros a Ha. destruct (H a Ha) as [-> _]. rewrite repeat_length. apply A1, Ha.
    - intros a i b j Ha Hb M. destruct (H a Ha) as [Ea Na]. destruct (H b Hb) as [Eb Nb]. destruct (A2 a i b j Ha Hb M) as [_ N].
      destruct M as [v [w [M1 [M2 [M3 M4]]]]].
      assert (Li : i < length (mu_of (m a))) by (rewrite A1 by exact Ha; apply nth_error_Some; congruence).
      assert (Lj : j < length (mu_of (m b))) by (rewrite A1 by exact Hb; apply nth_error_Some; congruence).
      split; [rewrite Ea, Eb, !nth_repeat_in by assumption; reflexivity|].
      intros el k He Hk. rewrite (Na el k i), (Nb el k j). apply (N el k He Hk).
  Qed.

  Lemma update_agreed : forall l s' es, agreed (methods l) -> fresh l -> NoDup (map fst (l_results S l)) ->
    upd (l_proxies S l) (l_results S l) (l_state S l) = (s', Ok es) -> agreed (d_method S s').
  Proof.
    intros l s' es A [F1 [F2 F3]] ND H. destruct (string_dec (do_rule opts) "primal-dual") as [Hr|Hr].
    - destruct (primal_dual_update S update primal_dual mu_of set_mu put_mu opts net blocks _ _ _ _ _ ND Hr H)
        as [mu [mu' [m1 [rs [r [ds [_ [U [_ [_ [_ [_ [P _]]]]]]]]]]]]].
      rewrite F1 in U. pose proof (raised_agreed (fun q => q) primal_dual _ _ _ _ (fun x y X => X) Hresidual F3 A U) as B.
      apply (levelled mu' m1); [exact B|]. intros a Ha. destruct (F3 a Ha) as [[q [Hq _]] _].
      apply (Hset mu' (m1 a)). apply (P a q Hq).
    - destruct (do_distributed opts) eqn:Hd.
      + destruct (distributed_update S update primal_dual mu_of set_mu put_mu opts net blocks _ _ _ _ _ ND Hd Hr H)
          as [m1 [mu [U [_ [P _]]]]].
        rewrite F1 in U. pose proof (raised_agreed grow update _ _ _ _ Hgrow Hupdate F3 A U) as B.
        apply (levelled mu m1); [exact B|]. intros a Ha. rewrite (P a (F2 eq_refl a Ha)). apply Hput.
      + destruct (serial_update S update primal_dual mu_of set_mu put_mu opts net blocks _ _ _ _ _ ND Hd Hr H) as [_ U].
        rewrite F1 in U. apply (raised_agreed grow update _ _ _ _ Hgrow Hupdate F3 A U).
  Qed.

  Hypothesis Hinner : 1 <= do_inner opts.

  Lemma outer_agreed : forall n k es l l' x, agreed (methods l) -> good S l ->
    outer_loop S solve update primal_dual mu_of set_mu put_mu opts net blocks draw n k es l = (l', Ok x) -> agreed (methods l').
  Proof.
    induction n as [|n IH]; intros k es l l' x A G H; cbn [DalModel.outer_loop] in H.
    - unfold cret in H. assert (l' = l) by congruence. subst. exact A.
    - unfold cbind at 1 in H.
      destruct (inner_loop S solve opts net blocks draw (inner_iterations opts k) PInf l) as [l1 [os|]] eqn:E1; [|discriminate].
      pose proof (inner_good S solve update primal_dual opts net blocks draw _ _ _ _ _ G E1) as G1.
      assert (I : exists n0, inner_iterations opts k = Datatypes.S n0).
      { unfold inner_iterations. destruct k, (do_inner_first opts) as [m|]; destruct (do_inner opts) as [|i]; try lia; try (eexists; reflexivity).
        destruct m; cbn; eexists; reflexivity. }
      destruct I as [n0 I]. rewrite I in E1. destruct (inner_agreed _ _ _ _ _ A E1) as [A1 F1].
      unfold cbind at 1 in H. unfold in_loop in H.
      destruct (upd (l_proxies S l1) (l_results S l1) (l_state S l1)) as [s2 [es1|]] eqn:E2; [|discriminate].
      pose proof (update_agreed _ _ _ A1 F1 (proj1 G1) E2) as A2.
      unfold cbind at 1, cres in H. destruct (max_error es1) as [m|]; [|discriminate].
      destruct (negb (Qle_bool (do_abs_tol opts) m)).
      + unfold cret in H. assert (l' = mkLoop S s2 (l_results S l1) (l_sweeps S l1) (l_proxies S l1)) by congruence. subst l'. exact A2.
      + unfold cbind in H.
        destruct (outer_loop S solve update primal_dual mu_of set_mu put_mu opts net blocks draw n (k + 1) es1 (mkLoop S s2 (l_results S l1) (l_sweeps S l1) (l_proxies S l1))) as [l3 [y|]] eqn:E3; [|discriminate].
        unfold cret in H. assert (l' = l3) by congruence. subst l3.
        apply (IH _ _ (mkLoop S s2 (l_results S l1) (l_sweeps S l1) (l_proxies S l1)) _ _ A2 (G1 : good S (mkLoop S s2 _ _ _)) E3).
  Qed.

  Lemma solve_agreed : forall s s' d, agreed (d_method S s) ->
    dal_solve S solve update primal_dual mu_of set_mu put_mu opts net blocks draw s = (s', Ok d) -> agreed (d_method S s').
  Proof.
    intros s s' d A H. unfold dal_solve in H.
    destruct (outer_loop S solve update primal_dual mu_of set_mu put_mu opts net blocks draw (do_outer opts) 0 [] (mkLoop S s [] 0 []))
      as [l [[h es]|e]] eqn:E; [|discriminate].
    destruct es as [|p0 es0]; [discriminate|]. set (es := p0 :: es0) in *.
    assert (Hs : s' = l_state S l) by congruence. subst s'.
    apply (fun G => outer_agreed _ _ _ (mkLoop S s [] 0 []) _ _ A G E).
    split; [constructor|intros a r []].
  Qed.
End Agree.

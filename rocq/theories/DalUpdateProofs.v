(** Proofs about the updates of the distributed method. *)
From Coq Require Import String Permutation Lqa Lia.
From Verif Require Import Base UtilModel ExprModel SysModel NlpModel NlpSpec SimModel DiscModel ResModel NetModel DalModel.
From Verif Require Import DalSpec BaseProofs UtilProofs NetColorProofs DalProofs DalLoopProofs.
Local Open Scope list_scope.
Local Open Scope cmd_scope.

Lemma fold_qmax : forall l e, is_largest (e :: l) (fold_left (fun a b => if Qle_bool a b then b else a) l e).
Proof. intros l e. exact (fold_max l e). Qed.

Lemma ext_le_refl : forall e, ext_le e e.
Proof. intros [|q|]; simpl; try exact I. lra. Qed.
Lemma ext_le_trans : forall a b c, ext_le a b -> ext_le b c -> ext_le a c.
Proof. intros [|x|] [|y|] [|z|]; simpl; try tauto. intros; lra. Qed.
Lemma ext_max_spec : forall a b, ext_le a (ext_max a b) /\ ext_le b (ext_max a b) /\ (ext_max a b = a \/ ext_max a b = b).
Proof.
  intros [|x|] [|y|]; simpl; try (repeat split; try exact I; auto; fail).
  - repeat split; auto. lra.
  - repeat split; auto. lra.
  - destruct (Qle_bool x y) eqn:E.
    + apply Qle_bool_iff in E. simpl. repeat split; auto; lra.
    + assert (~ (x <= y)%Q) by (intros X; apply Qle_bool_iff in X; congruence). simpl. repeat split; auto; lra.
Qed.
Lemma fold_extmax : forall l e, is_largest_ext (e :: l) (fold_left ext_max l e).
Proof.
  induction l as [|b l IH]; intros e; simpl.
  - split; [left; reflexivity|]. intros x [<-|[]]. apply ext_le_refl.
  - destruct (IH (ext_max e b)) as [H1 H2]. destruct (ext_max_spec e b) as [A [B C]]. split.
    + destruct H1 as [H1|H1]; [|right; right; exact H1]. rewrite <- H1. destruct C as [->| ->]; [left|right; left]; reflexivity.
    + pose proof (H2 _ (or_introl eq_refl)) as H3.
      intros x [<-|[<-|Hx]]; [exact (ext_le_trans _ _ _ A H3)|exact (ext_le_trans _ _ _ B H3)|]. apply H2. right. exact Hx.
Qed.

Lemma largest_in_groups : forall (gs : list (list Q)) ms m,
  Forall2 is_largest gs ms -> is_largest ms m -> is_largest (concat gs) m.
Proof.
  intros gs ms m F [Hin Hle]. split.
  - clear Hle. induction F as [|g x gs ms Hg F IH]; [destruct Hin|]. simpl. apply in_or_app.
    destruct Hin as [->|Hin]; [left; apply Hg|right; apply IH, Hin].
  - intros e He. apply in_concat in He. destruct He as [g [Hg He]].
    assert (X : exists x, In x ms /\ is_largest g x).
    { clear Hle Hin. induction F as [|g' x gs ms Hgx F IH]; [destruct Hg|]. destruct Hg as [->|Hg].
      - exists x. split; [left; reflexivity|exact Hgx].
      - destruct (IH Hg) as [y [Y1 Y2]]. exists y. split; [right; exact Y1|exact Y2]. }
    destruct X as [x [X1 X2]]. apply Qle_trans with x; [apply X2, He|apply Hle, X1].
Qed.
Lemma largest_mu_spec : forall l m, largest_mu l = Ok m -> is_largest (concat l) m.
Proof.
  intros l m H. unfold largest_mu in H.
  destruct (res_map _ l) as [ms|e] eqn:E; [|discriminate].
  apply res_map_F2 in E. apply largest_in_groups with ms.
  - clear H. induction E as [|g x gs ms Hg F IH]; constructor; [|exact IH].
    destruct g as [|q g]; [discriminate|]. injection Hg as <-. apply fold_qmax.
  - destruct ms as [|q ms]; [discriminate|]. injection H as <-. apply fold_qmax.
Qed.

Lemma primal_wins_spec : forall opts r s, primal_wins opts r s = true <-> primal_larger (do_gamma opts) r s.
Proof.
  intros opts r s. destruct s as [|q|]; simpl; rewrite Bool.negb_true_iff; split.
  - intros E. apply Qnot_le_lt. intros X. apply Qle_bool_iff in X. congruence.
  - intros E. apply Bool.not_true_iff_false. intros X. apply Qle_bool_iff in X. lra.
  - intros E. apply Qnot_le_lt. intros X. apply Qle_bool_iff in X. congruence.
  - intros E. apply Bool.not_true_iff_false. intros X. apply Qle_bool_iff in X. lra.
  - intros E. apply Qnot_le_lt. intros X. apply Qle_bool_iff in X. congruence.
  - intros E. apply Bool.not_true_iff_false. intros X. apply Qle_bool_iff in X. lra.
Qed.
Lemma dual_wins_spec : forall opts r s, dual_wins opts r s = true <-> dual_larger (do_gamma opts) r s.
Proof.
  intros opts r s. destruct s as [|q|]; simpl; [split; [discriminate|tauto]| |split; auto].
  rewrite Bool.negb_true_iff; split.
  - intros E. apply Qnot_le_lt. intros X. apply Qle_bool_iff in X. congruence.
  - intros E. apply Bool.not_true_iff_false. intros X. apply Qle_bool_iff in X. lra.
Qed.
Lemma primal_dual_mu_spec : forall opts mu rs ss mu', primal_dual_mu opts mu rs ss = Ok mu' ->
  exists r s, is_largest rs r /\ is_largest_ext ss s /\ next_penalty opts r s mu mu'.
Proof.
  intros opts mu rs ss mu' H. unfold primal_dual_mu in H.
  destruct (max_of _ rs) as [r|e] eqn:E1; [|discriminate]. destruct (max_of _ ss) as [s|e] eqn:E2; [|discriminate].
  exists r, s. split; [|split].
  - destruct rs as [|a [|b rs]]; try discriminate. injection E1 as <-. apply (fold_qmax (b :: rs) a).
  - destruct ss as [|a [|b ss]]; try discriminate. injection E2 as <-. apply (fold_extmax (b :: ss) a).
  - injection H as <-. unfold next_penalty. rewrite <- primal_wins_spec, <- dual_wins_spec.
    destruct (primal_wins opts r s).
    + split; [intros _; reflexivity|]. split; intros X; exfalso; apply X; reflexivity.
    + split; [discriminate|]. destruct (dual_wins opts r s).
      * split; [|intros _ X; exfalso; apply X; reflexivity]. intros _ _. unfold Qdiv. ring.
      * split; [discriminate|]. intros _ _. reflexivity.
Qed.

Lemma forallb_same : forall mu l, forallb (Qeq_bool mu) l = true -> forall q, In q l -> (q == mu)%Q.
Proof.
  intros mu l H q Hq. rewrite forallb_forall in H. apply H, Qeq_bool_iff in Hq. rewrite Hq. reflexivity.
Qed.

Lemma result_of_in : forall (l : results) a r, NoDup (map fst l) -> (In (a, r) l <-> result_of l a = Some r).
Proof.
  induction l as [|[b q] l IH]; intros a r ND; simpl; [split; [tauto|discriminate]|].
  inversion ND as [|? ? N0 ND']; subst. unfold result_of in *. simpl. destruct (Nat.eqb_spec a b) as [Eb|Nb]; [subst b|].
  - split; [intros [E|E]; [congruence|]|intros E; left; congruence].
    exfalso. apply N0. apply (in_map fst) in E. exact E.
  - rewrite <- (IH a r ND'). split; [intros [E|E]; [congruence|exact E]|tauto].
Qed.
Lemma result_perm : forall l l' : results, Permutation l l' -> NoDup (map fst l) -> forall a, result_of l a = result_of l' a.
Proof.
  intros l l' P ND a.
  assert (ND' : NoDup (map fst l')) by (apply (Permutation_NoDup (Permutation_map fst P) ND)).
  destruct (result_of l a) as [r|] eqn:E.
  - symmetry. apply (result_of_in _ _ _ ND'). apply (Permutation_in _ P). apply (result_of_in _ _ _ ND). exact E.
  - destruct (result_of l' a) as [r|] eqn:E'; [|reflexivity].
    apply (result_of_in _ _ _ ND') in E'. apply (Permutation_in _ (Permutation_sym P)) in E'.
    apply (result_of_in _ _ _ ND) in E'. congruence.
Qed.

Section Updates.
  Variable S : Type.
  Variable update : addr -> S -> theta Q -> list Q -> exogenous -> S * res (list Q).
  Variable primal_dual : addr -> S -> theta Q -> list Q -> exogenous -> S * res (Q * ext * list Q).
  Variable mu_of : S -> list Q.
  Variable set_mu : Q -> S -> S * res unit.
  Variable put_mu : list Q -> S -> S.
  Variables (opts : dal_options) (net : dnet) (blocks : dict nat (list addr)).

  (** One call for every node with a result. *)
  Section Calls.
    Variable E : Type.
    Variable call : addr -> S -> theta Q -> list Q -> exogenous -> S * res E.
    Variable one : addr -> node_result -> cmd (dstate S) E.
    Variable all : results -> cmd (dstate S) (dict addr E).
    Hypothesis Hone : forall a r, one a r =
      (th <~ reading S (fun last => node_theta opts net last a) ;;
       ex <~ reading S (fun last => node_exogenous opts net blocks last a) ;;
       on_node S a (fun m => call a m th (nr_x r) ex)).
    Hypothesis Hnil : all [] = cret [].
    Hypothesis Hcons : forall a r l, all ((a, r) :: l) =
      (e <~ one a r ;; es <~ all l ;; cret ((a, e) :: es)).

    Lemma calls_spec : forall l s s' es, NoDup (map fst l) -> all l s = (s', Ok es) ->
      d_last S s' = d_last S s /\ map fst es = map fst l /\
      updated call opts net (d_last S s) l (d_method S s) (d_method S s') es.
    Proof.
      induction l as [|[a r] l IH]; intros s s' es ND H.
      - rewrite Hnil in H. unfold cret in H. assert (s' = s) by congruence. assert (es = []) by congruence. subst.
        split; [reflexivity|]. split; [reflexivity|]. split; [intros; split; reflexivity|discriminate].
      - inversion ND as [|? ? N0 ND']; subst. rewrite Hcons in H. unfold cbind in H. rewrite Hone in H.
        unfold cbind, reading in H.
        destruct (node_theta opts net (d_last S s) a) as [th|] eqn:Eth; [|discriminate].
        destruct (node_exogenous opts net blocks (d_last S s) a) as [ex|] eqn:Eex; [|discriminate].
        unfold on_node in H. destruct (call a (d_method S s a) th (nr_x r) ex) as [m [e|]] eqn:Ec; [|discriminate].
        destruct (all l (mkState S (d_last S s) (put a m (d_method S s)))) as [s2 [es2|]] eqn:E2; [|discriminate].
        unfold cret in H. assert (s2 = s') by congruence. assert (es = (a, e) :: es2) by congruence. subst s2 es. clear H.
        destruct (IH _ _ _ ND' E2) as [A [B [C D]]]. simpl in A, C, D.
        split; [exact A|]. split; [simpl; congruence|].
        assert (Na : result_of l a = None).
        { destruct (result_of l a) as [q|] eqn:Eq; [|reflexivity]. exfalso. apply N0.
          apply (result_of_in _ _ _ ND') in Eq. apply (in_map fst) in Eq. exact Eq. }
        split.
        + intros b Hb. unfold result_of in Hb. simpl in Hb. simpl. destruct (Nat.eqb_spec b a) as [Eb|Nb]; [discriminate|].
          destruct (C b Hb) as [C1 C2]. unfold put in C1. destruct (Nat.eqb_spec b a) as [|_]; [contradiction|].
          split; assumption.
        + intros b q Hb. unfold result_of in Hb. simpl in Hb. simpl. destruct (Nat.eqb_spec b a) as [Eb|Nb]; [subst b|].
          * injection Hb as <-. exists th, ex, e. split; [apply node_theta_received; exact Eth|].
            destruct (C a Na) as [C1 _]. unfold put in C1. rewrite Nat.eqb_refl in C1. rewrite C1.
            split; [exact Ec|reflexivity].
          * destruct (D b q Hb) as [th' [ex' [e' [D1 [D2 D3]]]]]. exists th', ex', e'.
            unfold put in D2. destruct (Nat.eqb_spec b a) as [|_]; [contradiction|]. repeat split; assumption || apply D1.
    Qed.
  End Calls.

  Lemma update_nodes_spec : forall l s s' es, NoDup (map fst l) ->
    update_nodes S update opts net blocks l s = (s', Ok es) ->
    d_last S s' = d_last S s /\ map fst es = map fst l /\
    updated update opts net (d_last S s) l (d_method S s) (d_method S s') es.
  Proof.
    apply (calls_spec _ update (update_node S update opts net blocks)); [reflexivity|reflexivity|reflexivity].
  Qed.
  Lemma residuals_spec : forall l s s' es, NoDup (map fst l) ->
    all_residuals S primal_dual opts net blocks l s = (s', Ok es) ->
    d_last S s' = d_last S s /\ map fst es = map fst l /\
    updated primal_dual opts net (d_last S s) l (d_method S s) (d_method S s') es.
  Proof.
    apply (calls_spec _ primal_dual (residuals_of S primal_dual opts net blocks)); [reflexivity|reflexivity|reflexivity].
  Qed.

  Notation upd := (update_parameters S update primal_dual mu_of set_mu put_mu opts net blocks).

  (** Without processes and without "primal-dual": every node with a result is updated. *)
  Lemma serial_update : forall proxies rd s s' es, NoDup (map fst rd) -> do_distributed opts = false ->
    do_rule opts <> "primal-dual"%string -> upd proxies rd s = (s', Ok es) ->
    d_last S s' = d_last S s /\
    updated update opts net (d_last S s) rd (d_method S s) (d_method S s') es.
  Proof.
    intros proxies rd s s' es ND Hd Hr H. unfold update_parameters, update_serial in H. rewrite Hd in H.
    destruct (String.eqb_spec (do_rule opts) "primal-dual") as [X|_]; [contradiction|].
    assert (P : Permutation (by_id net rd) rd) by apply sort_by_perm.
    assert (ND' : NoDup (map fst (by_id net rd))).
    { apply (Permutation_NoDup (Permutation_sym (Permutation_map fst P)) ND). }
    destruct (update_nodes_spec _ _ _ _ ND' H) as [A [_ [B C]]]. split; [exact A|].
    split.
    - intros a Ha. apply B. rewrite (result_perm _ _ P ND'). exact Ha.
    - intros a r Ha. apply C. rewrite (result_perm _ _ P ND'). exact Ha.
  Qed.

  (** With processes: then all penalties of the nodes with a process become the largest. *)
  Lemma distributed_update : forall proxies rd s s' es, NoDup (map fst rd) -> do_distributed opts = true ->
    do_rule opts <> "primal-dual"%string -> upd proxies rd s = (s', Ok es) ->
    exists m1 mu,
      updated update opts net (d_last S s) rd (d_method S s) m1 es /\
      is_largest (concat (map (fun a => mu_of (m1 a)) proxies)) mu /\
      (forall a, In a proxies -> d_method S s' a = put_mu (repeat mu (length (mu_of (m1 a)))) (m1 a)) /\
      (forall a, ~ In a proxies -> d_method S s' a = m1 a) /\
      d_last S s' = d_last S s.
  Proof.
    intros proxies rd s s' es ND Hd Hr H. unfold update_parameters, update_distributed in H. rewrite Hd in H.
    destruct (String.eqb_spec (do_rule opts) "primal-dual") as [X|_]; [contradiction|].
    unfold cbind in H. destruct (update_nodes S update opts net blocks rd s) as [s1 [es1|]] eqn:E1; [|discriminate].
    destruct (update_nodes_spec _ _ _ _ ND E1) as [A [_ B]].
    unfold sync_mu in H. destruct (largest_mu _) as [mu|] eqn:Em; [|discriminate].
    unfold cret in H. assert (es1 = es) by congruence. subst es1.
    assert (Hs : s' = mkState S (d_last S s1) (fun a => if memb Nat.eqb a proxies
                             then put_mu (repeat mu (length (mu_of (d_method S s1 a)))) (d_method S s1 a)
                             else d_method S s1 a)) by congruence. subst s'. simpl. clear H.
    exists (d_method S s1), mu. split; [exact B|]. split; [apply largest_mu_spec, Em|].
    split; [|split; [|exact A]].
    - intros a Ha. apply memb_iff in Ha. rewrite Ha. reflexivity.
    - intros a Ha. rewrite (memb_out _ _ Ha). reflexivity.
  Qed.

  Lemma set_all : forall mu' rd s s', NoDup (map fst rd) ->
    crun (fun ar : addr * node_result => on_node S (fst ar) (set_mu mu')) rd s = (s', Ok tt) ->
    d_last S s' = d_last S s /\
    (forall a, result_of rd a = None -> d_method S s' a = d_method S s a) /\
    (forall a r, result_of rd a = Some r -> set_mu mu' (d_method S s a) = (d_method S s' a, Ok tt)).
  Proof.
    intros mu'. induction rd as [|[a r] rd IH]; intros s s' ND H; simpl in H.
    - unfold cret in H. assert (s' = s) by congruence. subst. split; [reflexivity|]. split; [reflexivity|discriminate].
    - inversion ND as [|? ? N0 ND']; subst. unfold cbind, on_node in H.
      destruct (set_mu mu' (d_method S s a)) as [m [[]|]] eqn:Es; [|discriminate].
      destruct (IH _ _ ND' H) as [A [B C]]. simpl in A, B, C. split; [exact A|].
      assert (Na : result_of rd a = None).
      { destruct (result_of rd a) as [q|] eqn:Eq; [|reflexivity]. exfalso. apply N0.
        apply (result_of_in _ _ _ ND') in Eq. apply (in_map fst) in Eq. exact Eq. }
      split.
      + intros b Hb. unfold result_of in Hb. simpl in Hb. destruct (Nat.eqb_spec b a) as [Eb|Nb]; [discriminate|].
        rewrite (B b Hb). unfold put. destruct (Nat.eqb_spec b a) as [|_]; [contradiction|reflexivity].
      + intros b q Hb. unfold result_of in Hb. simpl in Hb. destruct (Nat.eqb_spec b a) as [Eb|Nb]; [subst b|].
        * pose proof (B a Na) as B1. unfold put in B1. rewrite Nat.eqb_refl in B1. rewrite B1. exact Es.
        * specialize (C b q Hb). unfold put in C. destruct (Nat.eqb_spec b a) as [|_]; [contradiction|exact C].
  Qed.

  Lemma primal_dual_update : forall proxies rd s s' es, NoDup (map fst rd) ->
    do_rule opts = "primal-dual"%string -> upd proxies rd s = (s', Ok es) ->
    exists mu mu' m1 rs r ds,
      (forall a, In a (dn_nodes net) -> exists q l, mu_of (d_method S s a) = q :: l /\ (q == mu)%Q) /\
      updated primal_dual opts net (d_last S s) rd (d_method S s) m1 rs /\
      is_largest (map (fun ar => fst (fst (snd ar))) rs) r /\
      is_largest_ext (map (fun ar => snd (fst (snd ar))) rs) ds /\
      next_penalty opts r ds mu mu' /\
      (forall a, result_of rd a = None -> d_method S s' a = d_method S s a) /\
      (forall a q, result_of rd a = Some q -> set_mu mu' (m1 a) = (d_method S s' a, Ok tt)) /\
      es = map (fun ar => (fst ar, snd (snd ar))) rs /\ d_last S s' = d_last S s.
  Proof.
    intros proxies rd s s' es ND Hr H. unfold update_parameters, update_distributed, update_serial in H.
    rewrite Hr in H. change (String.eqb "primal-dual" "primal-dual") with true in H. cbv iota in H.
    assert (G : forall has missing, update_primal_dual S primal_dual mu_of set_mu opts net blocks has missing rd s = (s', Ok es) ->
      exists mu mu' m1 rs r ds,
      (forall a, In a (dn_nodes net) -> exists q l, mu_of (d_method S s a) = q :: l /\ (q == mu)%Q) /\
      updated primal_dual opts net (d_last S s) rd (d_method S s) m1 rs /\
      is_largest (map (fun ar => fst (fst (snd ar))) rs) r /\
      is_largest_ext (map (fun ar => snd (fst (snd ar))) rs) ds /\
      next_penalty opts r ds mu mu' /\
      (forall a, result_of rd a = None -> d_method S s' a = d_method S s a) /\
      (forall a q, result_of rd a = Some q -> set_mu mu' (m1 a) = (d_method S s' a, Ok tt)) /\
      es = map (fun ar => (fst ar, snd (snd ar))) rs /\ d_last S s' = d_last S s).
    { clear H. intros has missing H. unfold update_primal_dual, cbind in H.
      destruct (res_map (first_mu S mu_of has missing s) (dn_nodes net)) as [mus|] eqn:Em; [|discriminate].
      destruct (all_residuals S primal_dual opts net blocks rd s) as [s1 [rs|]] eqn:E1; [|discriminate].
      destruct (residuals_spec _ _ _ _ ND E1) as [A [_ B]].
      destruct mus as [|mu mus]; [discriminate|].
      destruct (forallb (Qeq_bool mu) mus) eqn:Ef; [|discriminate]. simpl negb in H. cbv iota in H.
      unfold cres in H. destruct (primal_dual_mu _ _ _ _) as [mu'|] eqn:Ep; [|discriminate].
      destruct (primal_dual_mu_spec _ _ _ _ _ Ep) as [r [ds [P1 [P2 P3]]]].
      cbv [negb] in H.
      destruct (crun (fun ar : addr * node_result => on_node S (fst ar) (set_mu mu')) rd s1) as [s2 [[]|]] eqn:E2; [|discriminate].
      unfold cret in H. assert (s2 = s') by congruence. subst s2.
      assert (He : es = map (fun ar => (fst ar, snd (snd ar))) rs) by congruence. clear H.
      destruct (set_all _ _ _ _ ND E2) as [C1 [C2 C3]].
      exists mu, mu', (d_method S s1), rs, r, ds.
      split; [|split; [exact B|split; [exact P1|split; [exact P2|split; [exact P3|split; [|split; [|split; [exact He|congruence]]]]]]]].
      - intros a Ha. apply res_map_F2 in Em.
        assert (X : exists q, In q (mu :: mus) /\ first_mu S mu_of has missing s a = Ok q).
        { clear - Em Ha. revert Em. generalize (mu :: mus). intros l Em. induction Em as [|b q bs qs Hb F IH]; [destruct Ha|].
          destruct Ha as [->|Ha]; [exists q; split; [left; reflexivity|exact Hb]|].
          destruct (IH Ha) as [q' [Q1 Q2]]. exists q'. split; [right; exact Q1|exact Q2]. }
        destruct X as [q [X1 X2]]. unfold first_mu in X2. destruct (has a); [|discriminate].
        destruct (mu_of (d_method S s a)) as [|q' l]; [discriminate|]. unfold at_index in X2. simpl in X2. injection X2 as ->.
        exists q, l. split; [reflexivity|]. destruct X1 as [->|X1]; [reflexivity|]. apply (forallb_same _ _ Ef _ X1).
      - intros a Ha. rewrite (C2 a Ha). apply B. exact Ha.
      - intros a q Ha. apply (C3 a q Ha). }
    destruct (do_distributed opts); apply (G _ _ H).
  Qed.

  (** Penalties that differ are never accepted again. *)
  Lemma differing_refused : forall proxies rd s a b x y l l', do_rule opts = "primal-dual"%string ->
    In a (dn_nodes net) -> In b (dn_nodes net) ->
    mu_of (d_method S s a) = x :: l -> mu_of (d_method S s b) = y :: l' -> ~ (x == y)%Q ->
    exists e, snd (upd proxies rd s) = Raise e.
  Proof.
    intros proxies rd s a b x y l l' Hr Ha Hb Hx Hy Hn.
    unfold update_parameters, update_distributed, update_serial.
    rewrite Hr. change (String.eqb "primal-dual" "primal-dual") with true. cbv iota.
    assert (G : forall has missing, exists e, snd (update_primal_dual S primal_dual mu_of set_mu opts net blocks has missing rd s) = Raise e).
    { intros has missing. unfold update_primal_dual, cbind.
      destruct (res_map (first_mu S mu_of has missing s) (dn_nodes net)) as [mus|e] eqn:Em; [|exists e; reflexivity].
      destruct (all_residuals S primal_dual opts net blocks rd s) as [s1 [rs|e]] eqn:E1; [|exists e; reflexivity].
      destruct mus as [|mu mus]; [exists KeyError; reflexivity|].
      destruct (forallb (Qeq_bool mu) mus) eqn:Ef; [|exists ValueError; reflexivity].
      exfalso. apply Hn.
      assert (X : forall c q k, In c (dn_nodes net) -> mu_of (d_method S s c) = q :: k -> (q == mu)%Q).
      { intros c q k Hc Hq. apply res_map_F2 in Em.
        assert (X : exists q, In q (mu :: mus) /\ first_mu S mu_of has missing s c = Ok q).
        { clear - Em Hc. revert Em. generalize (mu :: mus). intros l Em. induction Em as [|b q bs qs Hb F IH]; [destruct Hc|].
          destruct Hc as [->|Hc]; [exists q; split; [left; reflexivity|exact Hb]|].
          destruct (IH Hc) as [q' [Q1 Q2]]. exists q'. split; [right; exact Q1|exact Q2]. }
        destruct X as [q' [X1 X2]]. unfold first_mu in X2. destruct (has c); [|discriminate].
        rewrite Hq in X2. unfold at_index in X2. simpl in X2. injection X2 as ->.
        destruct X1 as [->|X1]; [reflexivity|]. apply (forallb_same _ _ Ef _ X1). }
      rewrite (X a x l Ha Hx), (X b y l' Hb Hy). reflexivity. }
    destruct (do_distributed opts); apply G.
  Qed.
End Updates.

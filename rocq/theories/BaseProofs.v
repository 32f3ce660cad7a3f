(** Lemmas about the shared vocabulary of [Base]. *)
From Coq Require Import Sorted Permutation.
From Verif Require Import Base.

Lemma combine_seq_In : forall (A : Type) (l : list A) k i w,
    In (i, w) (combine (seq k (length l)) l) <->
    (k <= i)%nat /\ nth_error l (i - k) = Some w.
Proof.
  intros A l; induction l as [|a l IH]; intros k i w; simpl.
  - split; [intros [] | intros [_ H]; destruct (i - k); discriminate].
  - rewrite IH. split.
    + intros [H | [H1 H2]].
      * injection H as <- <-. rewrite Nat.sub_diag. split; [lia | reflexivity].
      * split; [lia|]. replace (i - k) with (S (i - S k)) by lia. exact H2.
    + intros [H1 H2]. destruct (Nat.eq_dec i k) as [->|Hne].
      * rewrite Nat.sub_diag in H2. simpl in H2. injection H2 as ->. left; reflexivity.
      * right. split; [lia|]. replace (i - k) with (S (i - S k)) in H2 by lia. exact H2.
Qed.

Lemma enumerate_In : forall (A : Type) (l : list A) i w,
    In (i, w) (enumerate l) <-> nth_error l i = Some w.
Proof.
  intros A l i w. unfold enumerate. rewrite combine_seq_In, Nat.sub_0_r.
  split; [intros [_ H]; exact H | intros H; split; [lia | exact H]].
Qed.

Lemma filter_combine_seq_sorted : forall (A : Type) (l : list A) f k,
    StronglySorted lt (map fst (filter f (combine (seq k (length l)) l))).
Proof.
  intros A l; induction l as [|a l IH]; intros f k; simpl; [constructor|].
  destruct (f (k, a)); [|apply IH].
  simpl. constructor; [apply IH|].
  apply Forall_forall. intros i Hi. apply in_map_iff in Hi.
  destruct Hi as [[j w] [<- Hin]]. apply filter_In in Hin. destruct Hin as [Hin _].
  apply combine_seq_In in Hin. simpl; lia.
Qed.

Lemma seq_sorted : forall n k, StronglySorted lt (seq k n).
Proof.
  induction n as [|n IH]; intros k; simpl; constructor; [apply IH|].
  apply Forall_forall; intros x Hx; apply in_seq in Hx; lia.
Qed.

Lemma filter_sorted : forall (A : Type) (R : A -> A -> Prop) f (l : list A),
    StronglySorted R l -> StronglySorted R (filter f l).
Proof.
  intros A R f l H; induction H as [|a l Hs IH Hf]; simpl; [constructor|].
  destruct (f a); [|exact IH]. constructor; [exact IH|].
  apply Forall_forall. intros x Hx. apply filter_In in Hx.
  rewrite Forall_forall in Hf. apply Hf, Hx.
Qed.

Lemma gather_in_range : forall (A : Type) (l : list A) idx,
    (forall i, In i idx -> (i < length l)%nat) ->
    map (nth_error l) idx = map Some (gather l idx).
Proof.
  intros A l idx; induction idx as [|i idx IH]; intros H; simpl; [reflexivity|].
  destruct (nth_error l i) as [a|] eqn:Ha.
  - simpl. rewrite IH; [reflexivity|]. intros j Hj; apply H; right; exact Hj.
  - apply nth_error_None in Ha. specialize (H i (or_introl eq_refl)). lia.
Qed.

Lemma memb_spec : forall (A : Type) (eqb : A -> A -> bool),
    (forall x y, eqb x y = true <-> x = y) ->
    forall x l, memb eqb x l = true <-> In x l.
Proof.
  intros A eqb Heq x l. unfold memb. rewrite existsb_exists. split.
  - intros [y [Hin Hxy]]. apply Heq in Hxy. subst; exact Hin.
  - intros H; exists x; split; [exact H | apply Heq; reflexivity].
Qed.

Lemma memb_Z : forall x l, memb Z.eqb x l = true <-> In x l.
Proof. apply memb_spec. apply Z.eqb_eq. Qed.

Lemma memb_nat : forall x l, memb Nat.eqb x l = true <-> In x l.
Proof. apply memb_spec. apply Nat.eqb_eq. Qed.

Lemma map_Some_inj : forall (A : Type) (l1 l2 : list A),
    map Some l1 = map Some l2 -> l1 = l2.
Proof.
  intros A l1; induction l1 as [|a l1 IH]; intros [|b l2] H; simpl in H;
    try discriminate; [reflexivity|].
  injection H as -> H. f_equal. apply IH, H.
Qed.

(** Gathering the positions selected by a predicate is filtering. *)
Lemma gather_filter_seq_gen : forall (A : Type) (f : nat -> bool) (l pre : list A),
    gather (pre ++ l) (filter f (seq (length pre) (length l))) =
    map snd (filter (fun iw => f (fst iw)) (combine (seq (length pre) (length l)) l)).
Proof.
  intros A f l; induction l as [|a l IH]; intros pre; simpl; [reflexivity|].
  specialize (IH (pre ++ [a])).
  rewrite app_length in IH; simpl in IH. rewrite Nat.add_1_r in IH.
  rewrite <- app_assoc in IH; simpl in IH.
  destruct (f (length pre)) eqn:Hf; simpl; [|exact IH].
  rewrite nth_error_app2 by lia. rewrite Nat.sub_diag. simpl.
  unfold gather in IH |- *. rewrite IH. reflexivity.
Qed.

Lemma gather_filter_seq : forall (A : Type) (f : nat -> bool) (l : list A),
    gather l (filter f (seq 0 (length l))) =
    map snd (filter (fun iw => f (fst iw)) (enumerate l)).
Proof. intros A f l. exact (gather_filter_seq_gen A f l []). Qed.

(** Filtering positions by a property of the element is filtering elements. *)
Lemma filter_enumerate_snd_gen : forall (A : Type) (g : A -> bool) (f : nat -> bool)
    (l : list A) k,
    (forall i w, nth_error l i = Some w -> f (k + i) = g w) ->
    map snd (filter (fun iw => f (fst iw)) (combine (seq k (length l)) l)) = filter g l.
Proof.
  intros A g f l; induction l as [|a l IH]; intros k H; simpl; [reflexivity|].
  pose proof (H 0 a eq_refl) as H0. rewrite Nat.add_0_r in H0. rewrite H0.
  assert (Hl : map snd (filter (fun iw => f (fst iw)) (combine (seq (S k) (length l)) l))
               = filter g l).
  { apply IH. intros i w Hi. specialize (H (S i) w Hi).
    replace (S k + i) with (k + S i) by lia. exact H. }
  destruct (g a); simpl; rewrite Hl; reflexivity.
Qed.

Lemma gather_filter_elements : forall (A : Type) (g : A -> bool) (f : nat -> bool) (l : list A),
    (forall i w, nth_error l i = Some w -> f i = g w) ->
    gather l (filter f (seq 0 (length l))) = filter g l.
Proof.
  intros A g f l H. rewrite gather_filter_seq. unfold enumerate.
  apply filter_enumerate_snd_gen. intros i w Hi. simpl. apply H, Hi.
Qed.

(** Dictionaries. *)
Section DictLemmas.
  Context {K V : Type} (eqb : K -> K -> bool).
  Hypothesis eqb_eq : forall x y, eqb x y = true <-> x = y.

  Lemma eqb_refl_dict : forall x, eqb x x = true.
  Proof. intros x; apply eqb_eq; reflexivity. Qed.

  Lemma eqb_neq_dict : forall x y, x <> y -> eqb x y = false.
  Proof.
    intros x y H. destruct (eqb x y) eqn:E; [|reflexivity].
    apply eqb_eq in E. contradiction.
  Qed.

  Lemma dget_In : forall k v (d : dict K V), dget eqb k d = Some v -> In (k, v) d.
  Proof.
    intros k v d; induction d as [|[k' v'] d IH]; simpl; [discriminate|].
    destruct (eqb k k') eqn:E.
    - intros H; injection H as ->. apply eqb_eq in E; subst. left; reflexivity.
    - intros H; right; apply IH, H.
  Qed.

  Lemma In_dget : forall k v (d : dict K V),
      NoDup (dkeys d) -> In (k, v) d -> dget eqb k d = Some v.
  Proof.
    intros k v d; induction d as [|[k' v'] d IH]; simpl; [contradiction|].
    intros Hnd [H|H].
    - injection H as -> ->. rewrite eqb_refl_dict. reflexivity.
    - inversion Hnd as [|? ? Hni Hnd']; subst.
      rewrite eqb_neq_dict; [apply IH; assumption|].
      intros ->. apply Hni. change k' with (fst (k', v)). apply in_map, H.
  Qed.

  Lemma dget_None : forall k (d : dict K V), dget eqb k d = None <-> ~ In k (dkeys d).
  Proof.
    intros k d; induction d as [|[k' v'] d IH]; simpl; [tauto|].
    destruct (eqb k k') eqn:E.
    - apply eqb_eq in E; subst. split; [discriminate | intros H; exfalso; apply H; left; reflexivity].
    - rewrite IH. split.
      + intros H [H1|H1]; [subst; rewrite eqb_refl_dict in E; discriminate | apply H, H1].
      + intros H H1; apply H; right; exact H1.
  Qed.

  Lemma dhas_In : forall k (d : dict K V), dhas eqb k d = true <-> In k (dkeys d).
  Proof.
    intros k d. unfold dhas. destruct (dget eqb k d) eqn:E.
    - split; [intros _ | reflexivity]. apply dget_In in E.
      change k with (fst (k, v)). apply in_map, E.
    - apply dget_None in E. split; [discriminate | intros H; contradiction].
  Qed.

  Lemma dget_dset_same : forall k v (d : dict K V), dget eqb k (dset eqb k v d) = Some v.
  Proof.
    intros k v d; induction d as [|[k' v'] d IH]; simpl.
    - rewrite eqb_refl_dict; reflexivity.
    - destruct (eqb k k') eqn:E; simpl; rewrite E; [reflexivity | exact IH].
  Qed.

  Lemma dget_dset_other : forall k k' v (d : dict K V),
      k <> k' -> dget eqb k (dset eqb k' v d) = dget eqb k d.
  Proof.
    intros k k' v d Hne; induction d as [|[k2 v2] d IH]; simpl.
    - rewrite eqb_neq_dict; [reflexivity | exact Hne].
    - destruct (eqb k' k2) eqn:E; simpl.
      + apply eqb_eq in E; subst. rewrite eqb_neq_dict by exact Hne. reflexivity.
      + destruct (eqb k k2); [reflexivity | exact IH].
  Qed.

  Lemma dkeys_dset_In : forall k v (d : dict K V),
      In k (dkeys d) -> dkeys (dset eqb k v d) = dkeys d.
  Proof.
    intros k v d; induction d as [|[k' v'] d IH]; simpl; [contradiction|].
    intros H. destruct (eqb k k') eqn:E; simpl; [reflexivity|].
    f_equal. apply IH. destruct H as [H|H]; [|exact H].
    subst. rewrite eqb_refl_dict in E. discriminate.
  Qed.

  Lemma dkeys_dset_notIn : forall k v (d : dict K V),
      ~ In k (dkeys d) -> dkeys (dset eqb k v d) = dkeys d ++ [k].
  Proof.
    intros k v d; induction d as [|[k' v'] d IH]; simpl; [reflexivity|].
    intros H. destruct (eqb k k') eqn:E; simpl.
    - apply eqb_eq in E; subst. exfalso; apply H; left; reflexivity.
    - f_equal. apply IH. intros H1; apply H; right; exact H1.
  Qed.

  Lemma dset_notIn_app : forall k v (d : dict K V),
      ~ In k (dkeys d) -> dset eqb k v d = d ++ [(k, v)].
  Proof.
    intros k v d; induction d as [|[k' v'] d IH]; simpl; [reflexivity|].
    intros H. destruct (eqb k k') eqn:E; simpl.
    - apply eqb_eq in E; subst. exfalso; apply H; left; reflexivity.
    - f_equal. apply IH. intros H1; apply H; right; exact H1.
  Qed.

  Lemma dupdate_keys : forall e (d : dict K V),
      (forall k, In k (dkeys e) -> In k (dkeys d)) ->
      dkeys (dupdate eqb d e) = dkeys d.
  Proof.
    unfold dupdate. induction e as [|[k v] e IH]; intros d H; simpl; [reflexivity|].
    assert (Hk : dkeys (dset eqb k v d) = dkeys d).
    { apply dkeys_dset_In, H. left; reflexivity. }
    rewrite IH; [exact Hk|].
    intros k' Hk'. rewrite Hk. apply H; right; exact Hk'.
  Qed.

  Lemma dupdate_notin : forall e k (d : dict K V),
      ~ In k (dkeys e) -> dget eqb k (dupdate eqb d e) = dget eqb k d.
  Proof.
    unfold dupdate. induction e as [|[k' v] e IH]; intros k d H; simpl; [reflexivity|].
    rewrite IH by (intros H1; apply H; right; exact H1).
    apply dget_dset_other. intros ->. apply H; left; reflexivity.
  Qed.

  Lemma dupdate_in : forall e k v (d : dict K V),
      NoDup (dkeys e) -> In (k, v) e -> dget eqb k (dupdate eqb d e) = Some v.
  Proof.
    induction e as [|[k' v'] e IH]; intros k v d Hnd Hin; [contradiction|].
    change (dget eqb k (dupdate eqb (dset eqb k' v' d) e) = Some v).
    inversion Hnd as [|? ? Hni Hnd']; subst.
    destruct Hin as [Hin|Hin].
    - injection Hin as -> ->.
      rewrite (dupdate_notin e k) by exact Hni. apply dget_dset_same.
    - apply IH; assumption.
  Qed.
End DictLemmas.

Lemma existsb_false_iff : forall (A : Type) (f : A -> bool) l,
    existsb f l = false <-> forall x, In x l -> f x = false.
Proof.
  intros A f l; induction l as [|a l IH]; simpl; [split; [intros _ x [] | reflexivity]|].
  rewrite orb_false_iff, IH. split.
  - intros [H1 H2] x [<-|Hx]; [exact H1 | apply H2, Hx].
  - intros H; split; [apply H; left; reflexivity | intros x Hx; apply H; right; exact Hx].
Qed.

Lemma run_all_caught : forall (S O A : Type) (step : O -> cmd S A) ops s s',
    run_all step ops s = (s', Ok tt) -> s' = run_caught step ops s.
Proof.
  intros S O A step ops; induction ops as [|o ops IH]; intros s s' H; simpl in *.
  - injection H as ->; reflexivity.
  - destruct (step o s) as [s1 [a|e]] eqn:E; [|discriminate]. simpl. apply IH, H.
Qed.

(** An invariant of single calls is an invariant of every history. *)
Lemma run_caught_inv : forall (S O A : Type) (step : O -> cmd S A) (Inv : S -> Prop),
    (forall o s, Inv s -> Inv (fst (step o s))) ->
    forall ops s, Inv s -> Inv (run_caught step ops s).
Proof.
  intros S O A step Inv H ops; induction ops as [|o ops IH]; intros s Hs; simpl; [exact Hs|].
  apply IH, H, Hs.
Qed.

(** An invariant of successful calls holds after every successful history. *)
Lemma run_all_inv : forall (S O A : Type) (step : O -> cmd S A) (Inv : S -> Prop),
    (forall o s s' a, Inv s -> step o s = (s', Ok a) -> Inv s') ->
    forall ops s s', Inv s -> run_all step ops s = (s', Ok tt) -> Inv s'.
Proof.
  intros S O A step Inv H ops; induction ops as [|o ops IH]; intros s s' Hs Hr; simpl in Hr.
  - injection Hr as <-; exact Hs.
  - destruct (step o s) as [s1 [a|e]] eqn:E; [|discriminate].
    eapply IH; [eapply H; [exact Hs | exact E] | exact Hr].
Qed.

Lemma NoDup_app_l : forall (A : Type) (l l' : list A), NoDup (l ++ l') -> NoDup l.
Proof.
  intros A l l'; induction l as [|a l IH]; intros H; [constructor|].
  inversion H; subst. constructor; [|apply IH; assumption].
  intros Hin. apply H2. apply in_or_app; left; exact Hin.
Qed.

Lemma NoDup_app_r : forall (A : Type) (l l' : list A), NoDup (l ++ l') -> NoDup l'.
Proof.
  intros A l l'; induction l as [|a l IH]; intros H; [exact H|].
  inversion H; subst. apply IH; assumption.
Qed.

Lemma NoDup_app_disjoint : forall (A : Type) (l l' : list A) a,
    NoDup (l ++ l') -> In a l -> ~ In a l'.
Proof.
  intros A l l'; induction l as [|b l IH]; intros a H Hin; [contradiction|].
  inversion H; subst. destruct Hin as [<-|Hin]; [|apply IH; assumption].
  intros Hl. apply H2. apply in_or_app; right; exact Hl.
Qed.

Lemma NoDup_app_intro : forall (A : Type) (l l' : list A),
    NoDup l -> NoDup l' -> (forall a, In a l -> ~ In a l') -> NoDup (l ++ l').
Proof.
  intros A l l' H1 H2 H; induction l as [|a l IH]; [exact H2|].
  inversion H1; subst. simpl. constructor.
  - intros Hin. apply in_app_or in Hin. destruct Hin as [Hin|Hin]; [contradiction|].
    exact (H a (or_introl eq_refl) Hin).
  - apply IH; [assumption|]. intros b Hb. apply H. right; exact Hb.
Qed.

Lemma filter_len_le : forall (A : Type) (f : A -> bool) l, (length (filter f l) <= length l)%nat.
Proof.
  intros A f l; induction l as [|a l IH]; simpl; [lia|]. destruct (f a); simpl; lia.
Qed.

Lemma Forall2_len : forall (A B : Type) (R : A -> B -> Prop) l l',
    Forall2 R l l' -> length l = length l'.
Proof. intros A B R l l' H; induction H; simpl; congruence. Qed.

(** Proofs for the solver options. *)
From Coq Require Import String Lia.
From Verif Require Import Base BaseProofs OptModel OptSpec.
Local Open Scope list_scope.
Local Open Scope nat_scope.

(** ** Lists *)
Lemma put_at_at : forall (A : Type) i (a : A) l j, i < length l ->
    nth_error (put_at i a l) j = if Nat.eqb i j then Some a else nth_error l j.
Proof.
  intros A i a l j. revert l j. induction i as [|i IH]; intros [|b l] j L; simpl in L; try lia.
  - destruct j; reflexivity.
  - destruct j as [|j]; [reflexivity|]. cbn. apply (IH l j). lia.
Qed.
Lemma put_at_length : forall (A : Type) i (a : A) l, i < length l -> length (put_at i a l) = length l.
Proof.
  intros A i a l L. unfold put_at. rewrite app_length. cbn [length]. rewrite firstn_length, skipn_length. lia.
Qed.
Lemma change_at_gen : forall (A : Type) i (f : A -> A) l n j,
    nth_error (map (fun ia => if Nat.eqb (fst ia) i then f (snd ia) else snd ia) (combine (seq n (length l)) l)) j =
    option_map (fun a => if Nat.eqb (n + j) i then f a else a) (nth_error l j).
Proof.
  intros A i f l. induction l as [|a l IH]; intros n j; [destruct j; reflexivity|]. destruct j as [|j]; cbn.
  - rewrite Nat.add_0_r. reflexivity.
  - rewrite IH. replace (S n + j) with (n + S j) by lia. reflexivity.
Qed.
Lemma change_at : forall (A : Type) i (f : A -> A) l j,
    nth_error (change i f l) j = option_map (fun a => if Nat.eqb j i then f a else a) (nth_error l j).
Proof. intros A i f l j. unfold change. rewrite change_at_gen. reflexivity. Qed.
Lemma change_length : forall (A : Type) i (f : A -> A) l, length (change i f l) = length l.
Proof. intros. unfold change. rewrite map_length, combine_length, seq_length. lia. Qed.

Definition same_at {A B : Type} (R : nat -> A -> B -> Prop) (l : list A) (l' : list B) : Prop :=
  forall i, match nth_error l i, nth_error l' i with Some a, Some b => R i a b | None, None => True | _, _ => False end.
Lemma same_at_length : forall (A B : Type) (R : nat -> A -> B -> Prop) l l', same_at R l l' -> length l = length l'.
Proof.
  intros A B R l l' H. destruct (Nat.lt_trichotomy (length l) (length l')) as [L|[L|L]]; [|exact L|].
  - specialize (H (length l)). rewrite (proj2 (nth_error_None l _) (le_n _)) in H.
    destruct (nth_error l' (length l)) eqn:E; [contradiction|]. apply nth_error_None in E. lia.
  - specialize (H (length l')). rewrite (proj2 (nth_error_None l' _) (le_n _)) in H.
    destruct (nth_error l (length l')) eqn:E; [contradiction|]. apply nth_error_None in E. lia.
Qed.
Lemma same_at_mono : forall (A B : Type) (R R' : nat -> A -> B -> Prop) l l',
    (forall i a b, nth_error l i = Some a -> nth_error l' i = Some b -> R i a b -> R' i a b) -> same_at R l l' -> same_at R' l l'.
Proof.
  intros A B R R' l l' M H i. specialize (H i). destruct (nth_error l i) eqn:E, (nth_error l' i) eqn:E'; try exact H.
  apply M; assumption.
Qed.
Lemma same_at_snoc : forall (A B : Type) (R : nat -> A -> B -> Prop) l l' a b,
    same_at R l l' -> R (length l) a b -> same_at R (l ++ [a]) (l' ++ [b]).
Proof.
  intros A B R l l' a b H Hab i. pose proof (same_at_length _ _ _ _ _ H) as L.
  destruct (Nat.lt_trichotomy i (length l)) as [Hi|[->|Hi]].
  - rewrite !nth_error_app1 by lia. apply H.
  - rewrite !nth_error_app2 by lia. rewrite <- L, Nat.sub_diag. exact Hab.
  - rewrite (proj2 (nth_error_None _ _)), (proj2 (nth_error_None _ _)); [exact I| |]; rewrite app_length; cbn; lia.
Qed.
Lemma same_at_some : forall (A B : Type) (R : nat -> A -> B -> Prop) l l' i a,
    same_at R l l' -> nth_error l i = Some a -> exists b, nth_error l' i = Some b /\ R i a b.
Proof.
  intros A B R l l' i a H E. specialize (H i). rewrite E in H. destruct (nth_error l' i); [|contradiction]. eauto.
Qed.
Lemma same_at_none : forall (A B : Type) (R : nat -> A -> B -> Prop) l l' i,
    same_at R l l' -> nth_error l i = None -> nth_error l' i = None /\ Nat.ltb i (length l') = false.
Proof.
  intros A B R l l' i H E. pose proof (same_at_length _ _ _ _ _ H) as L. apply nth_error_None in E. split.
  - apply nth_error_None. lia.
  - apply Nat.ltb_ge. lia.
Qed.
Lemma some_lt : forall (A : Type) (l : list A) i a, nth_error l i = Some a -> i < length l.
Proof. intros A l i a E. apply nth_error_Some. congruence. Qed.
Lemma some_ltb : forall (A : Type) (l : list A) i a, nth_error l i = Some a -> Nat.ltb i (length l) = true.
Proof. intros A l i a E. apply Nat.ltb_lt. eapply some_lt. exact E. Qed.

(** ** Dictionaries *)
Section Tables.
  Variable V : Type.
  Implicit Types d c : dict string V.

  Lemma existsb_key : forall k d, existsb (String.eqb k) (map fst d) = dhas String.eqb k d.
  Proof.
    intros k d. unfold dhas. induction d as [|[k' v] d IH]; [reflexivity|]. cbn. destruct (String.eqb k k'); [reflexivity|exact IH].
  Qed.
  Lemma has_In : forall k d, existsb (String.eqb k) (map fst d) = true <-> In k (map fst d).
  Proof.
    intros k d. rewrite existsb_exists. split.
    - intros [x [H E]]. apply String.eqb_eq in E. congruence.
    - intros H. exists k. split; [exact H|apply String.eqb_refl].
  Qed.
  Lemma map_other : forall k (v : V) d, existsb (String.eqb k) (map fst d) = false ->
      map (fun kv => if String.eqb k (fst kv) then (fst kv, v) else kv) d = d.
  Proof.
    intros k v d H. rewrite <- (map_id d) at 2. apply map_ext_in. intros [k' v'] Hi. cbn.
    destruct (String.eqb k k') eqn:E; [|reflexivity]. exfalso. apply String.eqb_eq in E. subst k'.
    rewrite (proj2 (has_In k d)) in H; [discriminate|]. apply in_map_iff. exists (k, v'). auto.
  Qed.
  Lemma dset_written : forall k (v : V) d, keyed d -> dset String.eqb k v d = written V k v d.
  Proof.
    intros k v d. unfold keyed. induction d as [|[k' v'] d IH]; intros N; [reflexivity|]. cbn [dset map fst] in *. inversion N; subst.
    unfold written in *. cbn [map fst existsb]. destruct (String.eqb k k') eqn:E.
    - cbn [orb]. cbn. rewrite map_other; [reflexivity|]. apply Bool.not_true_is_false. intros H. apply String.eqb_eq in E. subst k'.
      apply (proj1 (has_In k d)) in H. contradiction.
    - cbn [orb]. rewrite (IH H2). destruct (existsb (String.eqb k) (map fst d)); reflexivity.
  Qed.
  Lemma written_keys : forall k (v : V) d,
      map fst (written V k v d) = if existsb (String.eqb k) (map fst d) then map fst d else map fst d ++ [k].
  Proof.
    intros k v d. unfold written. destruct (existsb _ _).
    - rewrite map_map. apply map_ext. intros [k' v']. cbn. destruct (String.eqb k k'); reflexivity.
    - rewrite map_app. reflexivity.
  Qed.
  Lemma written_keyed : forall k (v : V) d, keyed d -> keyed (written V k v d).
  Proof.
    intros k v d N. unfold keyed in *. rewrite written_keys. destruct (existsb (String.eqb k) (map fst d)) eqn:E; [exact N|].
    apply NoDup_app_intro; [exact N|constructor; [intros []|constructor]|]. intros x Hx [<-|[]]. apply has_In in Hx. congruence.
  Qed.

  Lemma filled_gen : forall c d acc, keyed c -> keyed acc ->
      (forall k, In k (map fst c) -> (existsb (String.eqb k) (map fst acc) = existsb (String.eqb k) (map fst d))) ->
      filled c acc = acc ++ filter (fun kv => negb (existsb (String.eqb (fst kv)) (map fst d))) c /\ keyed (filled c acc).
  Proof.
    unfold filled. induction c as [|[k v] c IH]; intros d acc Nc Na Hk; cbn [fold_left filter].
    - rewrite app_nil_r. auto.
    - unfold keyed in Nc. cbn in Nc. inversion Nc as [|? ? Hnot Nc']; subst. cbn [fst snd]. rewrite <- existsb_key, (Hk k (or_introl eq_refl)).
      destruct (existsb (String.eqb k) (map fst d)) eqn:E; cbn [negb].
      + apply (IH d acc Nc' Na). intros k' Hi. apply Hk. right. exact Hi.
      + rewrite dset_written by exact Na. destruct (IH d (written V k v acc) Nc' (written_keyed k v acc Na)) as [Ea Eb].
        * intros k' Hi. rewrite written_keys, (Hk k (or_introl eq_refl)), E, existsb_app. cbn [existsb]. rewrite Bool.orb_false_r.
          destruct (String.eqb k' k) eqn:Ek; [|rewrite Bool.orb_false_r; apply Hk; right; exact Hi].
          apply String.eqb_eq in Ek. subst k'. contradiction.
        * split; [|exact Eb]. rewrite Ea. unfold written. rewrite (Hk k (or_introl eq_refl)), E, <- app_assoc. reflexivity.
  Qed.
  Lemma filled_defaults : forall c d, keyed c -> keyed d -> filled c d = with_defaults c d /\ keyed (filled c d).
  Proof. intros c d Nc Nd. apply (filled_gen c d d Nc Nd). reflexivity. Qed.

  Lemma dget_dset : forall k k' (v : V) d,
      dget String.eqb k (dset String.eqb k' v d) = if String.eqb k k' then Some v else dget String.eqb k d.
  Proof.
    intros k k' v d. induction d as [|[a b] d IH]; cbn; [destruct (String.eqb k k'); reflexivity|].
    destruct (String.eqb_spec k' a) as [->|Ha]; cbn; destruct (String.eqb_spec k a) as [->|Hk]; try reflexivity.
    - rewrite (proj2 (String.eqb_neq a k')) by congruence. reflexivity.
    - exact IH.
  Qed.
  Lemma filled_entry : forall c d k, dget String.eqb k (filled c d) =
      match dget String.eqb k d with Some v => Some v | None => dget String.eqb k c end.
  Proof.
    unfold filled. induction c as [|[a b] c IH]; intros d k; cbn [fold_left]; [destruct (dget _ k d); reflexivity|].
    rewrite IH. cbn [fst snd dget]. unfold dhas. destruct (dget String.eqb a d) eqn:Ea.
    - destruct (dget String.eqb k d) eqn:Ek; [reflexivity|]. destruct (String.eqb_spec k a) as [->|]; [congruence|reflexivity].
    - rewrite dget_dset. destruct (String.eqb_spec k a) as [->|Hk]; [rewrite Ea; reflexivity|]. reflexivity.
  Qed.
End Tables.

(** ** Refinement *)
Inductive owner := ODefault | OConfig | OMethod (i : nat) | OProblem (j : nat) | ODict (k : nat).

Section Refine.
  Variable V : Type.
  Notation table := (dict string V).

  Definition holds (names : nat -> owner) (h : list table) (o : owner) (l : nat) (d : table) : Prop :=
    names l = o /\ nth_error h l = Some d.
  Definition problem_rel (names : nat -> owner) (w : world V) (j : nat) (p : prob V) (p' : ideal_problem V) : Prop :=
    match ip_options V p' with
    | Own _ d => holds names (w_heap w) (OProblem j) (pr_opts p) d
    | OfMethod _ i => exists m, nth_error (w_methods w) i = Some m /\ pr_opts p = me_opts m
    end /\ pr_solver p = ip_solver V p'.
  Record agrees (names : nat -> owner) (w : world V) (s : ideal V) : Prop := mkAgrees
    { ag_config : holds names (w_heap w) OConfig config_place (i_config V s);
      ag_keyed : forall l d, nth_error (w_heap w) l = Some d -> keyed d;
      ag_dicts : same_at (fun k l d => holds names (w_heap w) (ODict k) l d) (w_dicts w) (i_dicts V s);
      ag_methods : same_at (fun i m m' => holds names (w_heap w) (OMethod i) (me_opts m) (im_options V m') /\
                                          me_problem m = im_problem V m') (w_methods w) (i_methods V s);
      ag_problems : same_at (problem_rel names w) (w_problems w) (i_problems V s) }.
  Definition matches (w : world V) (s : ideal V) : Prop := exists names, agrees names w s.

  Definition named (names : nat -> owner) (l : nat) (o : owner) : nat -> owner :=
    fun l' => if Nat.eqb l' l then o else names l'.
  Lemma holds_made : forall names h o o' l d d', holds names h o l d -> holds (named names (length h) o') (h ++ [d']) o l d.
  Proof.
    intros names h o o' l d d' [Hn He]. pose proof (some_lt _ _ _ _ He) as L. split.
    - unfold named. rewrite (proj2 (Nat.eqb_neq l (length h))) by lia. exact Hn.
    - rewrite nth_error_app1 by exact L. exact He.
  Qed.
  Lemma holds_new : forall names h o d, holds (named names (length h) o) (h ++ [d]) o (length h) d.
  Proof.
    intros. split; [unfold named; rewrite Nat.eqb_refl; reflexivity|]. rewrite nth_error_app2, Nat.sub_diag by lia. reflexivity.
  Qed.

  (** A new dictionary does not disturb anything. *)
  Lemma agrees_make : forall names w s o d, agrees names w s -> keyed d ->
      agrees (named names (length (w_heap w)) o) (set_heap V (w_heap w ++ [d]) w) s.
  Proof.
    intros names w s o d [Hc Hk Hd Hm Hp] Kd. constructor; cbn [w_heap w_dicts w_methods w_problems set_heap].
    - apply holds_made. exact Hc.
    - intros l d' E. destruct (Nat.lt_ge_cases l (length (w_heap w))) as [L|L].
      + rewrite nth_error_app1 in E by exact L. eapply Hk. exact E.
      + rewrite nth_error_app2 in E by exact L. destruct (l - length (w_heap w)) as [|[|n]]; cbn in E; congruence.
    - revert Hd. apply same_at_mono. intros k l d' _ _ H. apply holds_made. exact H.
    - revert Hm. apply same_at_mono. intros i m m' _ _ [H E]. split; [apply holds_made; exact H|exact E].
    - revert Hp. apply same_at_mono. intros j p p' _ _ [H E]. split; [|exact E].
      destruct (ip_options V p'); [apply holds_made; exact H|exact H].
  Qed.

  (** Writing at a place changes what its owner has. *)
  Lemma holds_put : forall names h l0 d0 o l d, l0 < length h -> holds names h o l d -> names l0 <> o ->
      holds names (put_at l0 d0 h) o l d.
  Proof.
    intros names h l0 d0 o l d L [Hn He] Ne. split; [exact Hn|]. rewrite put_at_at by exact L.
    destruct (Nat.eqb_spec l0 l) as [->|]; [contradiction|exact He].
  Qed.
  Lemma holds_put_same : forall names h o l d d0, holds names h o l d -> holds names (put_at l d0 h) o l d0.
  Proof.
    intros names h o l d d0 [Hn He]. split; [exact Hn|]. rewrite put_at_at by (eapply some_lt; exact He). rewrite Nat.eqb_refl. reflexivity.
  Qed.
  Lemma put_keyed : forall (h : list table) l0 d0, l0 < length h -> keyed d0 ->
      (forall l d, nth_error h l = Some d -> keyed d) -> forall l d, nth_error (put_at l0 d0 h) l = Some d -> keyed d.
  Proof.
    intros h l0 d0 L Kd Hk l d E. rewrite put_at_at in E by exact L. destruct (Nat.eqb l0 l); [congruence|eapply Hk; exact E].
  Qed.

  Lemma look_at : forall w l (d : table), nth_error (w_heap w) l = Some d -> look w l = d.
  Proof. intros w l d E. unfold look. apply nth_error_nth. exact E. Qed.

  (** The place of a name holds what the ideal reads. *)
  Lemma place_known : forall names w s n, agrees names w s -> known V n s = true ->
      exists l, place V n w = (w, Ok l) /\ nth_error (w_heap w) l = Some (ideal_read V n s).
  Proof.
    intros names w s n A K. destruct n as [|i|j|k]; cbn [place known ideal_read options_at] in *.
    - exists config_place. split; [reflexivity|]. apply (ag_config _ _ _ A).
    - pose proof (same_at_length _ _ _ _ _ (ag_methods _ _ _ A)) as L. apply Nat.ltb_lt in K.
      destruct (nth_error (w_methods w) i) as [m|] eqn:E; [|apply nth_error_None in E; lia].
      destruct (same_at_some _ _ _ _ _ _ _ (ag_methods _ _ _ A) E) as (m' & E' & [_ H] & _).
      exists (me_opts m). rewrite E'. split; [|exact H]. unfold cbind, lookup. rewrite E. reflexivity.
    - pose proof (same_at_length _ _ _ _ _ (ag_problems _ _ _ A)) as L. apply Nat.ltb_lt in K.
      destruct (nth_error (w_problems w) j) as [p|] eqn:E; [|apply nth_error_None in E; lia].
      destruct (same_at_some _ _ _ _ _ _ _ (ag_problems _ _ _ A) E) as (p' & E' & H & _).
      exists (pr_opts p). rewrite E'. split; [unfold cbind, lookup; rewrite E; reflexivity|].
      destruct (ip_options V p') as [d|i]; cbn [options_at]; [apply H|].
      destruct H as (m & Em & ->). destruct (same_at_some _ _ _ _ _ _ _ (ag_methods _ _ _ A) Em) as (m' & Em' & [_ H] & _).
      rewrite Em'. exact H.
    - pose proof (same_at_length _ _ _ _ _ (ag_dicts _ _ _ A)) as L. apply Nat.ltb_lt in K.
      destruct (nth_error (w_dicts w) k) as [l|] eqn:E; [|apply nth_error_None in E; lia].
      destruct (same_at_some _ _ _ _ _ _ _ (ag_dicts _ _ _ A) E) as (d & E' & _ & H).
      exists l. split; [unfold lookup; rewrite E; reflexivity|]. rewrite (nth_error_nth _ _ _ E'). exact H.
  Qed.
  Lemma place_unknown : forall names w s n, agrees names w s -> known V n s = false -> place V n w = (w, Raise IndexError).
  Proof.
    intros names w s n A K. destruct n as [|i|j|k]; cbn [place known] in *; [discriminate| | |]; apply Nat.ltb_ge in K.
    - rewrite <- (same_at_length _ _ _ _ _ (ag_methods _ _ _ A)) in K. unfold cbind, lookup.
      rewrite (proj2 (nth_error_None _ _) K). reflexivity.
    - rewrite <- (same_at_length _ _ _ _ _ (ag_problems _ _ _ A)) in K. unfold cbind, lookup.
      rewrite (proj2 (nth_error_None _ _) K). reflexivity.
    - rewrite <- (same_at_length _ _ _ _ _ (ag_dicts _ _ _ A)) in K. unfold lookup.
      rewrite (proj2 (nth_error_None _ _) K). reflexivity.
  Qed.

  (** Writing into the options of a method. *)
  Lemma same_at_change : forall (A B : Type) (R R' : nat -> A -> B -> Prop) i f l l',
      same_at R l l' -> (forall j a b, nth_error l j = Some a -> nth_error l' j = Some b -> R j a b ->
                           R' j a (if Nat.eqb j i then f b else b)) ->
      same_at R' l (change i f l').
  Proof.
    intros A B R R' i f l l' H M j. specialize (H j). rewrite change_at. destruct (nth_error l j) eqn:E, (nth_error l' j) eqn:E'; try exact H.
    cbn. apply M; assumption.
  Qed.
  Lemma same_at_both : forall (A B : Type) (R R' : nat -> A -> B -> Prop) i a f l l', i < length l ->
      same_at R l l' ->
      (forall b, nth_error l' i = Some b -> R' i a (f b)) ->
      (forall j a b, j <> i -> nth_error l j = Some a -> nth_error l' j = Some b -> R j a b -> R' j a b) ->
      same_at R' (put_at i a l) (change i f l').
  Proof.
    intros A B R R' i a f l l' L H Hi M j. specialize (H j). rewrite change_at, put_at_at by exact L.
    destruct (Nat.eqb_spec i j) as [->|Hd].
    - destruct (nth_error l j) eqn:E; [|apply nth_error_None in E; lia]. destruct (nth_error l' j) eqn:E'; [|contradiction].
      cbn. rewrite Nat.eqb_refl. apply Hi. reflexivity.
    - destruct (nth_error l j) eqn:E, (nth_error l' j) eqn:E'; try exact H. cbn.
      rewrite (proj2 (Nat.eqb_neq j i)) by congruence. apply M; try assumption. congruence.
  Qed.

  Lemma write_method_agrees : forall names w s i m k v, agrees names w s -> nth_error (w_methods w) i = Some m ->
      forall d, nth_error (w_heap w) (me_opts m) = Some d ->
      agrees names (set_heap V (put_at (me_opts m) (written V k v d) (w_heap w)) w) (write_method V k v i s).
  Proof.
    intros names w s i m k v A Em d Ed. destruct A as [Hc Hk Hd Hm Hp].
    destruct (same_at_some _ _ _ _ _ _ _ Hm Em) as (m' & Em' & [Hn He] & _).
    pose proof (some_lt _ _ _ _ Ed) as L.
    assert (Ne : forall o l d', o <> OMethod i -> holds names (w_heap w) o l d' -> holds names (put_at (me_opts m) (written V k v d) (w_heap w)) o l d').
    { intros o l d' Ho H. apply holds_put; [exact L|exact H|congruence]. }
    constructor; cbn [w_heap w_dicts w_methods w_problems set_heap write_method on_method i_config i_dicts i_methods i_problems].
    - apply Ne; [discriminate|exact Hc].
    - apply put_keyed; [exact L|apply written_keyed; eapply Hk; exact Ed|exact Hk].
    - revert Hd. apply same_at_mono. intros q l d' _ _ H. apply Ne; [discriminate|exact H].
    - eapply same_at_change; [exact Hm|]. intros j a b Ej Ej' [H E]. destruct (Nat.eqb_spec j i) as [->|Hd'].
      + cbn [im_options im_problem]. split; [|exact E]. assert (a = m) by congruence. subst a.
        destruct H as [H1 H2]. assert (Eb : Some (im_options V b) = Some d) by exact (eq_trans (eq_sym H2) Ed).
        injection Eb as ->.
        eapply holds_put_same. split; [exact H1|exact Ed].
      + split; [|exact E]. apply Ne; [congruence|exact H].
    - revert Hp. apply same_at_mono. intros j p p' _ _ [H E]. split; [|exact E]. cbn [w_heap w_methods set_heap].
      destruct (ip_options V p'); [apply Ne; [discriminate|exact H]|exact H].
  Qed.

  (** Solving. *)
  Lemma solve_problem_matches : forall names w s j, agrees names w s ->
      exists w' s' r, solve_problem V j w = (w', r) /\ agrees names w' s' /\
        ideal_solve V j s = (s', match r with Ok d => Ok (Some d) | Raise e => Raise e end).
  Proof.
    intros names w s j A. unfold solve_problem, ideal_solve, lookup, cbind.
    destruct (nth_error (w_problems w) j) as [p|] eqn:E.
    2:{ destruct (same_at_none _ _ _ _ _ _ (ag_problems _ _ _ A) E) as [-> _]. exists w, s, (Raise IndexError). auto. }
    destruct (same_at_some _ _ _ _ _ _ _ (ag_problems _ _ _ A) E) as (p' & E' & H & Es). rewrite E', <- Es.
    destruct (pr_solver p) as [d|] eqn:Ep; [exists w, s, (Ok d); auto|].
    destruct (place_known names w s (NProblem j) A) as (l & El & Hl).
    { cbn. eapply some_ltb. exact E'. }
    cbn [place] in El. unfold cbind, lookup in El. rewrite E in El. cbn in El. injection El as <-.
    cbn [ideal_read] in Hl. rewrite E' in Hl.
    rewrite (look_at _ _ _ Hl). cbn [cmodify cret]. eexists _, _, (Ok _). split; [reflexivity|]. split; [|reflexivity].
    destruct A as [Hc Hk Hd Hm Hp]. constructor;
      cbn [w_heap w_dicts w_methods w_problems set_problems on_problem i_config i_dicts i_methods i_problems]; try assumption.
    eapply same_at_both; [eapply some_lt; exact E|exact Hp| |].
    - intros b Eb. assert (b = p') by congruence. subst b. split; [|reflexivity]. exact H.
    - intros i a b _ _ _ Hr. exact Hr.
  Qed.

  Lemma create_matches : forall names w s i m, agrees names w s -> nth_error (w_methods w) i = Some m ->
      exists w', create V i w = (w', Ok (length (w_problems w))) /\ agrees names w' (ideal_create V i s).
  Proof.
    intros names w s i m A Em. unfold create, new_problem, place_or, set_problem_opts, lookup, cbind, cmodify, cret.
    rewrite Em. cbn [w_heap w_dicts w_methods w_problems set_problems].
    rewrite nth_error_app2, Nat.sub_diag by lia. cbn [nth_error pr_solver].
    eexists. split; [reflexivity|].
    destruct A as [Hc Hk Hd Hm Hp]. destruct (same_at_some _ _ _ _ _ _ _ Hm Em) as (m' & Em' & Hh & Epr).
    constructor; cbn [w_heap w_dicts w_methods w_problems set_problems set_methods ideal_create on_method i_config i_dicts i_methods i_problems];
      try assumption.
    - eapply same_at_both; [eapply some_lt; exact Em|exact Hm| |].
      + intros b Eb. assert (b = m') by congruence. subst b. cbn [me_opts me_problem im_options im_problem].
        split; [exact Hh|]. rewrite (same_at_length _ _ _ _ _ Hp). reflexivity.
      + intros j a b _ _ _ Hr. exact Hr.
    - replace (put_at (length (w_problems w)) _ _) with (w_problems w ++ [mkProb (me_opts m) None]).
      2:{ unfold put_at. rewrite firstn_app, Nat.sub_diag, firstn_all, skipn_all2 by (rewrite app_length; cbn; lia). cbn. rewrite app_nil_r. reflexivity. }
      apply same_at_snoc.
      + revert Hp. apply same_at_mono. intros j p p' _ _ [H E]. split; [|exact E]. cbn [w_heap w_methods set_methods set_problems].
        destruct (ip_options V p') as [d|q]; [exact H|]. destruct H as (mq & Eq & ->).
        rewrite put_at_at by (eapply some_lt; exact Em). destruct (Nat.eqb_spec i q) as [->|].
        * eexists. split; [reflexivity|]. cbn. congruence.
        * exists mq. auto.
      + split; [|reflexivity]. cbn [ip_options]. cbn [w_methods set_methods set_problems].
        rewrite put_at_at by (eapply some_lt; exact Em). rewrite Nat.eqb_refl. eexists. split; reflexivity.
  Qed.

  (** Every call has the effect of the specification. *)
  Lemma step_matches : forall w s c, matches w s -> gives_own c -> keyed_call c ->
      exists w' s' r, step c w = (w', r) /\ ideal_step V c s = (s', r) /\ matches w' s'.
  Proof.
    intros w s c [names A] O K. destruct c as [d|g|g|n k v|i g|j g|i|i|j|n]; cbn [gives_own keyed_call] in O, K.
    - (* a dictionary *)
      cbn [step ideal_step]. unfold cbind, make, cmodify, cret. cbn [set_heap w_dicts].
      eexists _, _, _. split; [reflexivity|]. split; [reflexivity|].
      exists (named names (length (w_heap w)) (ODict (length (w_dicts w)))).
      destruct (agrees_make names w s (ODict (length (w_dicts w))) d A K) as [Hc Hk Hd Hm Hp].
      constructor; try assumption. cbn [w_heap w_dicts set_dicts set_heap i_dicts]. apply same_at_snoc; [exact Hd|]. apply holds_new.
    - (* a method *)
      destruct g as [[d|n]|]; try contradiction. cbn [step ideal_step place_or place_of]. unfold new_method, fill, cbind, place_or, place_of, make, cmodify, cret.
      cbn [set_heap w_heap w_methods].
      eexists _, _, _. split; [reflexivity|]. split; [reflexivity|].
      set (L := length (w_heap w)). exists (named names L (OMethod (length (w_methods w)))).
      pose proof (agrees_make names w s (OMethod (length (w_methods w))) d A K) as A1.
      assert (E0 : nth_error (w_heap w ++ [d]) L = Some d) by (unfold L; rewrite nth_error_app2, Nat.sub_diag by lia; reflexivity).
      assert (E1 : look (set_heap V (w_heap w ++ [d]) w) L = d) by (apply look_at; exact E0).
      assert (E2 : look (set_heap V (w_heap w ++ [d]) w) config_place = i_config V s) by (apply look_at; apply (ag_config _ _ _ A1)).
      rewrite E1, E2.
      assert (Kc : keyed (i_config V s)) by (eapply (ag_keyed _ _ _ A); apply (ag_config _ _ _ A)).
      destruct (filled_defaults V (i_config V s) d Kc K) as [Ef Kf]. rewrite Ef in Kf |- *.
      assert (LL : L < length (w_heap w ++ [d])) by (rewrite app_length; cbn; unfold L; lia).
      assert (NL : named names L (OMethod (length (w_methods w))) L = OMethod (length (w_methods w))) by (unfold named; rewrite Nat.eqb_refl; reflexivity).
      destruct A1 as [Hc Hk Hd Hm Hp]. cbn [set_heap w_heap w_dicts w_methods w_problems] in Hc, Hk, Hd, Hm, Hp. fold L in Hc, Hd, Hm, Hp.
      pose proof (same_at_length _ _ _ _ _ (ag_methods _ _ _ A)) as Lm.
      constructor; cbn [w_heap w_dicts w_methods w_problems set_methods set_heap i_config i_dicts i_methods i_problems].
      + apply holds_put; [exact LL|exact Hc|rewrite NL; discriminate].
      + apply put_keyed; assumption.
      + revert Hd. apply same_at_mono. intros q l d' _ _ H. apply holds_put; [exact LL|exact H|rewrite NL; discriminate].
      + apply same_at_snoc.
        * revert Hm. apply same_at_mono. intros q m m' Eq _ [H E]. split; [|exact E]. apply holds_put; [exact LL|exact H|]. rewrite NL.
          intros [= Hq]. apply some_lt in Eq. lia.
        * cbn [me_opts me_problem im_options im_problem]. split; [|reflexivity]. eapply holds_put_same. split; [exact NL|exact E0].
      + revert Hp. apply same_at_mono. intros q p p' _ _ [H E]. split; [|exact E]. cbn [w_heap w_methods set_methods set_heap] in *.
        destruct (ip_options V p'); [apply holds_put; [exact LL|exact H|rewrite NL; discriminate]|].
        destruct H as (m & Em & Eo). exists m. split; [|exact Eo]. rewrite nth_error_app1 by (eapply some_lt; exact Em). exact Em.
    - (* a problem *)
      destruct g as [[d|n]|]; try contradiction. cbn [step ideal_step]. unfold new_problem, cbind, place_or, place_of, make, cmodify, cret.
      cbn [set_heap w_heap w_problems].
      eexists _, _, _. split; [reflexivity|]. split; [reflexivity|].
      set (L := length (w_heap w)). exists (named names L (OProblem (length (w_problems w)))).
      pose proof (agrees_make names w s (OProblem (length (w_problems w))) d A K) as A1.
      assert (E1 : look (set_heap V (w_heap w ++ [d]) w) L = d).
      { apply look_at. unfold L. cbn. rewrite nth_error_app2, Nat.sub_diag by lia. reflexivity. }
      rewrite E1. destruct d as [|kv d]; [congruence|].
      destruct A1 as [Hc Hk Hd Hm Hp]. constructor; try assumption. cbn [w_problems set_problems set_heap i_problems].
      apply same_at_snoc; [exact Hp|]. split; [|reflexivity]. cbn [ip_options pr_opts w_heap set_problems set_heap]. apply holds_new.
    - (* writing *)
      cbn [step ideal_step]. destruct (known V n s) eqn:Kn.
      2:{ unfold cbind. rewrite (place_unknown names w s n A Kn). exists w, s, (Raise IndexError). split; [reflexivity|]. split; [reflexivity|]. exists names. exact A. }
      destruct (place_known names w s n A Kn) as (l & El & Hl). unfold cbind. rewrite El. cbn [cmodify cret].
      rewrite (look_at _ _ _ Hl). assert (Kr : keyed (ideal_read V n s)) by (eapply (ag_keyed _ _ _ A); exact Hl).
      rewrite (dset_written V k v _ Kr). eexists _, _, _. split; [reflexivity|]. split; [reflexivity|]. exists names.
      pose proof (some_lt _ _ _ _ Hl) as L.
      destruct n as [|i|j|q]; cbn [place ideal_read ideal_write known options_at] in *.
      + injection El as <-. destruct A as [Hc Hk Hd Hm Hp].
        assert (Ne : forall o l' d', o <> OConfig -> holds names (w_heap w) o l' d' ->
                  holds names (put_at config_place (written V k v (i_config V s)) (w_heap w)) o l' d').
        { intros o l' d' Ho H. apply holds_put; [exact L|exact H|]. destruct Hc as [Hc _]. congruence. }
        constructor; cbn [w_heap w_dicts w_methods w_problems set_heap i_config i_dicts i_methods i_problems].
        * eapply holds_put_same. exact Hc.
        * apply put_keyed; [exact L|apply written_keyed; exact Kr|exact Hk].
        * revert Hd. apply same_at_mono. intros q l' d' _ _ H. apply Ne; [discriminate|exact H].
        * revert Hm. apply same_at_mono. intros q m m' _ _ [H E]. split; [|exact E]. apply Ne; [discriminate|exact H].
        * revert Hp. apply same_at_mono. intros q p p' _ _ [H E]. split; [|exact E]. cbn [w_heap w_methods set_heap].
          destruct (ip_options V p'); [apply Ne; [discriminate|exact H]|exact H].
      + unfold cbind, lookup in El. destruct (nth_error (w_methods w) i) as [m|] eqn:Em; cbn in El; [|discriminate].
        injection El as <-. apply (write_method_agrees names w s i m k v A Em). exact Hl.
      + unfold cbind, lookup in El. destruct (nth_error (w_problems w) j) as [p|] eqn:Ep; cbn in El; [|discriminate].
        injection El as <-. destruct (same_at_some _ _ _ _ _ _ _ (ag_problems _ _ _ A) Ep) as (p' & Ep' & H & Es).
        rewrite Ep' in Hl, Kr |- *. destruct p' as [op sv]. cbn [ip_options ip_solver options_at] in *. destruct op as [d|i].
        * cbn [options_at] in *. destruct A as [Hc Hk Hd Hm Hp].
          assert (Ne : forall o l' d', o <> OProblem j -> holds names (w_heap w) o l' d' ->
                    holds names (put_at (pr_opts p) (written V k v d) (w_heap w)) o l' d').
          { intros o l' d' Ho H'. apply holds_put; [exact L|exact H'|]. destruct H as [H _]. congruence. }
          constructor; cbn [w_heap w_dicts w_methods w_problems set_heap on_problem i_config i_dicts i_methods i_problems].
          -- apply Ne; [discriminate|exact Hc].
          -- apply put_keyed; [exact L|apply written_keyed; exact Kr|exact Hk].
          -- revert Hd. apply same_at_mono. intros q l' d' _ _ H'. apply Ne; [discriminate|exact H'].
          -- revert Hm. apply same_at_mono. intros q m m' _ _ [H' E]. split; [|exact E]. apply Ne; [discriminate|exact H'].
          -- eapply same_at_change; [exact Hp|]. intros q a b Eq Eq' [H' E]. destruct (Nat.eqb_spec q j) as [->|Hq].
             ++ assert (a = p) by congruence. assert (b = mkIdealProblem V (Own V d) sv) by congruence. subst a b.
                split; [|exact E]. cbn [ip_options ip_solver options_at]. cbn [w_heap set_heap]. eapply holds_put_same. exact H.
             ++ split; [|exact E]. cbn [w_heap w_methods set_heap]. destruct (ip_options V b); [apply Ne; [congruence|exact H']|exact H'].
        * destruct H as (m & Em & Eo). cbn [options_at] in *.
          destruct (same_at_some _ _ _ _ _ _ _ (ag_methods _ _ _ A) Em) as (m' & Em' & Hh & _). rewrite Em' in Hl, Kr |- *.
          rewrite Eo in Hl |- *. apply (write_method_agrees names w s i m k v A Em). exact Hl.
      + unfold lookup in El. destruct (nth_error (w_dicts w) q) as [l'|] eqn:Eq; [|discriminate]. injection El as <-.
        destruct (same_at_some _ _ _ _ _ _ _ (ag_dicts _ _ _ A) Eq) as (d & Ed & H). rewrite (nth_error_nth _ _ _ Ed) in Kr |- *.
        destruct A as [Hc Hk Hd Hm Hp].
        assert (Ne : forall o l'' d', o <> ODict q -> holds names (w_heap w) o l'' d' ->
                  holds names (put_at l' (written V k v d) (w_heap w)) o l'' d').
        { intros o l'' d' Ho H'. apply holds_put; [exact L|exact H'|]. destruct H as [H _]. congruence. }
        constructor; cbn [w_heap w_dicts w_methods w_problems set_heap i_config i_dicts i_methods i_problems].
        * apply Ne; [discriminate|exact Hc].
        * apply put_keyed; [exact L|apply written_keyed; exact Kr|exact Hk].
        * eapply same_at_change; [exact Hd|]. intros q' a b Ea Eb H'. destruct (Nat.eqb_spec q' q) as [->|Hq].
          -- assert (a = l') by congruence. assert (b = d) by congruence. subst a b. eapply holds_put_same. exact H.
          -- apply Ne; [congruence|exact H'].
        * revert Hm. apply same_at_mono. intros q' m m' _ _ [H' E]. split; [|exact E]. apply Ne; [discriminate|exact H'].
        * revert Hp. apply same_at_mono. intros q' p p' _ _ [H' E]. split; [|exact E]. cbn [w_heap w_methods set_heap].
          destruct (ip_options V p'); [apply Ne; [discriminate|exact H']|exact H'].
    - destruct g; contradiction.
    - (* assigning to a problem *)
      destruct g as [d|n]; try contradiction. cbn [step ideal_step place_of]. unfold cbind, make, set_problem_opts, lookup. cbn [set_heap w_problems w_heap].
      destruct (nth_error (w_problems w) j) as [p|] eqn:E.
      2:{ destruct (same_at_none _ _ _ _ _ _ (ag_problems _ _ _ A) E) as [_ ->]. eexists _, _, _. split; [reflexivity|]. split; [reflexivity|].
          exists (named names (length (w_heap w)) ODefault). apply agrees_make; assumption. }
      destruct (same_at_some _ _ _ _ _ _ _ (ag_problems _ _ _ A) E) as (p' & E' & H & Es). rewrite (some_ltb _ _ _ _ E').
      unfold cbind, cmodify, cret. cbn [set_heap w_heap w_problems]. eexists _, _, _. split; [reflexivity|]. split; [reflexivity|].
      exists (named names (length (w_heap w)) (OProblem j)).
      destruct (agrees_make names w s (OProblem j) d A K) as [Hc Hk Hd Hm Hp].
      constructor; try assumption. cbn [w_problems set_problems set_heap on_problem i_problems].
      eapply same_at_both; [eapply some_lt; exact E|exact Hp| |].
      + intros b Eb. assert (b = p') by congruence. subst b. split; [|exact Es]. cbn [ip_options pr_opts w_heap set_problems set_heap]. apply holds_new.
      + intros q a b _ _ _ Hr. exact Hr.
    - (* creating *)
      cbn [step ideal_step]. unfold cbind. destruct (nth_error (w_methods w) i) as [m|] eqn:Em.
      + destruct (create_matches names w s i m A Em) as (w' & -> & A'). destruct (same_at_some _ _ _ _ _ _ _ (ag_methods _ _ _ A) Em) as (m' & Em' & _).
        rewrite (some_ltb _ _ _ _ Em'). eexists _, _, _. split; [reflexivity|]. split; [reflexivity|]. exists names. exact A'.
      + destruct (same_at_none _ _ _ _ _ _ (ag_methods _ _ _ A) Em) as [_ ->]. unfold create, lookup, cbind. rewrite Em.
        eexists _, _, _. split; [reflexivity|]. split; [reflexivity|]. exists names. exact A.
    - (* solving a method *)
      cbn [step ideal_step]. unfold cbind, solve_method, lookup, cbind. destruct (nth_error (w_methods w) i) as [m|] eqn:Em.
      + destruct (same_at_some _ _ _ _ _ _ _ (ag_methods _ _ _ A) Em) as (m' & Em' & Hh & Ep). rewrite Em', <- Ep.
        destruct (me_problem m) as [j|].
        * cbn [cret]. destruct (solve_problem_matches names w s j A) as (w' & s' & r & -> & A' & ->).
          destruct r as [d|e]; eexists _, _, _; (split; [reflexivity|]; split; [reflexivity|]; exists names; exact A').
        * destruct (create_matches names w s i m A Em) as (w1 & -> & A1).
          destruct (solve_problem_matches names w1 _ (length (w_problems w)) A1) as (w' & s' & r & -> & A' & Es).
          rewrite <- (same_at_length _ _ _ _ _ (ag_problems _ _ _ A)), Es.
          destruct r as [d|e]; eexists _, _, _; (split; [reflexivity|]; split; [reflexivity|]; exists names; exact A').
      + destruct (same_at_none _ _ _ _ _ _ (ag_methods _ _ _ A) Em) as [-> _].
        eexists _, _, _. split; [reflexivity|]. split; [reflexivity|]. exists names. exact A.
    - (* solving a problem *)
      cbn [step ideal_step]. unfold cbind. destruct (solve_problem_matches names w s j A) as (w' & s' & r & -> & A' & ->).
      destruct r as [d|e]; eexists _, _, _; (split; [reflexivity|]; split; [reflexivity|]; exists names; exact A').
    - (* reading *)
      cbn [step ideal_step]. unfold cbind. destruct (known V n s) eqn:Kn.
      + destruct (place_known names w s n A Kn) as (l & -> & Hl). rewrite (look_at _ _ _ Hl).
        eexists _, _, _. split; [reflexivity|]. split; [reflexivity|]. exists names. exact A.
      + rewrite (place_unknown names w s n A Kn). eexists _, _, _. split; [reflexivity|]. split; [reflexivity|]. exists names. exact A.
  Qed.

  Lemma history_matches : forall cs w s, matches w s -> Forall gives_own cs -> Forall keyed_call cs ->
      snd (history cs w) = ideal_history cs s.
  Proof.
    induction cs as [|c cs IH]; intros w s M O K; [reflexivity|]. inversion O; subst. inversion K; subst.
    destruct (step_matches w s c M) as (w' & s' & r & Es & Ei & M'); try assumption.
    cbn [history ideal_history]. rewrite Es, Ei. specialize (IH w' s' M'). destruct (history cs w') as [w'' rs]. cbn in *. rewrite IH; auto.
  Qed.
  Lemma imported_matches : forall config : table, keyed config -> matches (imported config) (ideal_start config).
  Proof.
    intros config K. exists (fun l => match l with 1 => OConfig | _ => ODefault end). constructor; cbn.
    - split; reflexivity.
    - intros [|[|[|l]]] d E; cbn in E; try discriminate; injection E as <-; [constructor|exact K].
    - intros [|i]; exact I.
    - intros [|i]; exact I.
    - intros [|i]; exact I.
  Qed.
  Lemma w_C83_own_options : forall (config : table) cs, keyed config -> Forall gives_own cs -> Forall keyed_call cs ->
      snd (history cs (imported config)) = ideal_history cs (ideal_start config).
  Proof. intros config cs K O Kc. apply history_matches; try assumption. apply imported_matches. exact K. Qed.
End Refine.

(** Lemmas about data sets. *)
From Coq Require Import String Sorted Permutation Lqa.
From Verif Require Import Base BaseProofs ExprModel SysModel SysProofs SimModel DataModel DataSpec.
Local Open Scope list_scope.
Local Open Scope cmd_scope.

(** ** Dictionaries *)

Lemma look_put : forall k k' e d, look k (put k' e d) = if String.eqb k k' then Some e else look k d.
Proof.
  intros k k' e d. unfold look, put. induction d as [|[a b] d IH]; simpl; [reflexivity|].
  destruct (String.eqb_spec k' a) as [->|N]; simpl; [destruct (String.eqb k a); reflexivity|].
  destruct (String.eqb_spec k a) as [->|N2]; [|exact IH].
  destruct (String.eqb_spec a k'); [congruence|reflexivity].
Qed.
Lemma look_put_same : forall k e d, look k (put k e d) = Some e.
Proof. intros. rewrite look_put, String.eqb_refl. reflexivity. Qed.
Lemma look_put_other : forall k k' e d, k <> k' -> look k (put k' e d) = look k d.
Proof. intros. rewrite look_put. destruct (String.eqb_spec k k'); [contradiction|reflexivity]. Qed.

Lemma keys_put : forall k e d,
    dkeys (put k e d) = if dhas String.eqb k d then dkeys d else dkeys d ++ [k].
Proof.
  intros k e d. unfold put, dkeys, dhas. induction d as [|[a b] d IH]; simpl; [reflexivity|].
  destruct (String.eqb k a); simpl; [reflexivity|]. rewrite IH. destruct (dget String.eqb k d); reflexivity.
Qed.
Lemma keys_put_in : forall k e e' d, look k d = Some e -> dkeys (put k e' d) = dkeys d.
Proof. intros k e e' d H. rewrite keys_put. unfold dhas. unfold look in H. rewrite H. reflexivity. Qed.
Lemma look_In : forall k d, look k d <> None <-> In k (dkeys d).
Proof.
  intros k d. unfold look, dkeys. induction d as [|[a b] d IH]; simpl; [tauto|].
  destruct (String.eqb_spec k a) as [->|N]; [split; [left; reflexivity|discriminate]|].
  rewrite IH. split; [tauto|]. intros [E|H]; [congruence|exact H].
Qed.
Lemma NoDup_put : forall k e d, NoDup (dkeys d) -> NoDup (dkeys (put k e d)).
Proof.
  intros k e d H. rewrite keys_put. unfold dhas. destruct (dget String.eqb k d) eqn:E; [exact H|].
  apply NoDup_app_intro; [exact H|repeat constructor; tauto|].
  intros a Ha [->|[]]. apply look_In in Ha. contradiction.
Qed.

(** ** Consistency *)

Lemma null_cases : forall m, is_null m = true <-> m = null.
Proof.
  intros [r c]. unfold is_null, null; simpl. destruct r, c; split; intros H; try discriminate; reflexivity.
Qed.
Lemma horzcat_ok : forall a b v, horzcat a b = Ok v ->
    fits a b /\ mcols v = mcols a ++ mcols b /\
    (rectangular a -> rectangular b -> rectangular v) /\ (a <> null -> mrows v = mrows a) /\ (a = null -> v = b).
Proof.
  intros a b v H. unfold horzcat in H.
  destruct (is_null a) eqn:Ea.
  { apply null_cases in Ea. subst. injection H as <-. split; [left; reflexivity|]. repeat split; try tauto. }
  destruct (is_null b) eqn:Eb.
  { apply null_cases in Eb. subst. injection H as <-. split; [right; left; reflexivity|]. simpl. rewrite app_nil_r.
    split; [reflexivity|]. split; [tauto|]. split; [reflexivity|]. intros ->. discriminate. }
  destruct (Nat.eqb_spec (mrows a) (mrows b)) as [E|]; [|discriminate]. injection H as <-.
  split; [right; right; exact E|]. split; [reflexivity|]. split; [|split; [reflexivity|intros ->; discriminate]].
  unfold rectangular; simpl. intros Ha Hb. apply Forall_app. split; [exact Ha|]. rewrite E. exact Hb.
Qed.
Lemma horzcat_total : forall a b, fits a b -> exists v, horzcat a b = Ok v.
Proof.
  intros a b H. unfold horzcat. destruct (is_null a) eqn:Ea; [eexists; reflexivity|].
  destruct (is_null b) eqn:Eb; [eexists; reflexivity|].
  destruct H as [->|[->|H]]; try discriminate. rewrite H, Nat.eqb_refl. eexists; reflexivity.
Qed.
Lemma horzcat_fails : forall a b, ~ fits a b -> horzcat a b = Raise CasadiError.
Proof.
  intros a b H. unfold horzcat. destruct (is_null a) eqn:Ea; [apply null_cases in Ea; exfalso; apply H; left; exact Ea|].
  destruct (is_null b) eqn:Eb; [apply null_cases in Eb; exfalso; apply H; right; left; exact Eb|].
  destruct (Nat.eqb_spec (mrows a) (mrows b)) as [E|]; [exfalso; apply H; right; right; exact E|reflexivity].
Qed.

Lemma consistent_put : forall k e d, consistent d -> entry_consistent e -> consistent (put k e d).
Proof.
  intros k e d [N H] He. split; [apply NoDup_put, N|]. intros k' e' Hl. rewrite look_put in Hl.
  destruct (String.eqb k' k); [injection Hl as <-; exact He|]. eapply H; exact Hl.
Qed.

(** What an insertion does, case by case. *)
Lemma insert_cases : forall k time value d,
    match time_row time with
    | Raise x => insert_data k time value d = (d, Raise x)
    | Ok ts =>
        if negb (length ts =? length (mcols value))%nat then insert_data k time value d = (d, Raise ValueError)
        else match look k d with
             | None => insert_data k time value d = (d, Raise KeyError)
             | Some e =>
                 match horzcat (e_values e) value with
                 | Raise x => insert_data k time value d = (d, Raise x)
                 | Ok v =>
                     let e' := set_e_time (e_time e ++ ts) (set_e_values v e) in
                     let d' := put k e' (put k (set_e_values v e) d) in
                     match e_size e with
                     | Some _ => insert_data k time value d = (d', Ok tt)
                     | None => match look "entry" d' with
                               | None => insert_data k time value d = (d', Raise KeyError)
                               | Some x => insert_data k time value d =
                                             (put "entry" (set_e_size (Some (mrows value)) x) d', Ok tt)
                               end
                     end
                 end
             end
    end.
Proof.
  intros k time value d. unfold insert_data. destruct (time_row time) as [ts|x]; [|reflexivity].
  unfold cbind, cguard, cset. destruct (negb _); [reflexivity|].
  destruct (look k d) as [e|] eqn:El; [|reflexivity].
  destruct (horzcat (e_values e) value) as [v|x]; [|reflexivity]. cbv zeta.
  rewrite !look_put_same.
  destruct e as [a [n|] b c st]; [reflexivity|].
  cbn [set_e_time set_e_values e_names e_size e_time e_values e_style].
  match goal with |- context [match look "entry" ?x with _ => _ end] => destruct (look "entry" x) end; reflexivity.
Qed.

Lemma insert_consistent : forall k time value d,
    consistent d -> rectangular value -> consistent (fst (insert_data k time value d)).
Proof.
  intros k time value d C R. pose proof (insert_cases k time value d) as H.
  destruct (time_row time) as [ts|x]; [|rewrite H; exact C].
  destruct (Nat.eqb_spec (length ts) (length (mcols value))) as [L|]; cbn [negb] in H; [|rewrite H; exact C].
  destruct (look k d) as [e|] eqn:El; [|rewrite H; exact C].
  destruct (horzcat (e_values e) value) as [v|] eqn:Ev; [|rewrite H; exact C]. cbv zeta in H.
  pose proof (proj2 C k e El) as [E1 E2]. apply horzcat_ok in Ev. destruct Ev as [_ [V1 [V2 _]]].
  match type of H with context [put k ?y (put k ?x d)] =>
    assert (C2 : forall z, entry_consistent z -> consistent (put k z (put k x d))) end.
  { intros z Hz. split; [apply NoDup_put, NoDup_put, C|]. intros k' e' Hl. rewrite look_put in Hl.
    destruct (String.eqb_spec k' k) as [->|Nk]; [injection Hl as <-; exact Hz|].
    rewrite look_put_other in Hl by exact Nk. eapply (proj2 C); exact Hl. }
  assert (Ce : entry_consistent (set_e_time (e_time e ++ ts) (set_e_values v e))).
  { split; cbn [set_e_time set_e_values e_time e_values].
    - rewrite V1, !app_length, E1, L. reflexivity.
    - apply V2; assumption. }
  specialize (C2 _ Ce).
  destruct (e_size e); [rewrite H; exact C2|].
  destruct (look "entry" _) as [x|] eqn:Lx in H; [|rewrite H; exact C2].
  rewrite H. apply consistent_put; [exact C2|]. pose proof (proj2 C2 _ _ Lx) as X. exact X.
Qed.

(** ** Sorting *)

Lemma insert_perm : forall p l, Permutation (p :: l) (insert_point p l).
Proof.
  intros p l; induction l as [|a l IH]; simpl; [reflexivity|].
  destruct (Qle_bool (fst p) (fst a)); [reflexivity|].
  rewrite perm_swap. constructor. exact IH.
Qed.
Lemma sort_perm : forall l, Permutation l (sort_points l).
Proof.
  induction l as [|a l IH]; simpl; [constructor|]. rewrite <- insert_perm. constructor. exact IH.
Qed.
Lemma insert_sorted : forall p l, chronological l -> chronological (insert_point p l).
Proof.
  intros p l H; induction H as [|a l Hl IH Ha]; simpl; [repeat constructor|].
  destruct (Qle_bool (fst p) (fst a)) eqn:E.
  - apply Qle_bool_iff in E. constructor; [constructor; assumption|]. constructor; [exact E|].
    eapply Forall_impl; [|exact Ha]. intros b Hb. simpl in *. lra.
  - assert (L : (fst a <= fst p)%Q).
    { destruct (Qlt_le_dec (fst a) (fst p)) as [L|L]; [lra|]. apply Qle_bool_iff in L. congruence. }
    constructor; [exact IH|]. apply Forall_forall. intros b Hb.
    apply (Permutation_in b (Permutation_sym (insert_perm p l))) in Hb. destruct Hb as [<-|Hb]; [exact L|].
    rewrite Forall_forall in Ha. exact (Ha b Hb).
Qed.
Lemma sort_sorted : forall l, chronological (sort_points l).
Proof. induction l as [|a l IH]; simpl; [constructor|]. apply insert_sorted, IH. Qed.
Lemma insert_stable : forall t p l, at_time t (insert_point p l) = at_time t (p :: l).
Proof.
  intros t p l; induction l as [|a l IH]; simpl; [reflexivity|].
  destruct (Qle_bool (fst p) (fst a)) eqn:E; [reflexivity|]. simpl. rewrite IH. simpl.
  destruct (Qeq_bool t (fst a)) eqn:Ea; [|reflexivity].
  destruct (Qeq_bool t (fst p)) eqn:Ep; [|reflexivity].
  exfalso. apply Qeq_bool_iff in Ea. apply Qeq_bool_iff in Ep.
  assert (L : (fst p <= fst a)%Q) by lra. apply Qle_bool_iff in L. congruence.
Qed.
Lemma sort_stable : forall t l, at_time t (sort_points l) = at_time t l.
Proof.
  intros t l; induction l as [|a l IH]; simpl; [reflexivity|]. rewrite insert_stable. simpl. rewrite IH. reflexivity.
Qed.
Lemma sort_points_sorting : forall l, sorting l (sort_points l).
Proof. intros l. split; [apply sort_sorted|split; [apply sort_perm|intros; apply sort_stable]]. Qed.

Lemma combine_split_pts : forall (l : list (Q * list Q)), combine (map fst l) (map snd l) = l.
Proof. induction l as [|[a b] l IH]; simpl; [reflexivity|]. rewrite IH. reflexivity. Qed.

Definition sorted_entry (e : entry) : entry :=
  let ps := sort_points (points e) in
  set_e_values (mkMat (mrows (e_values e)) (map snd ps)) (set_e_time (map fst ps) e).

Lemma sort_entry_cases : forall k d,
    match look k d with
    | None => sort_entry k d = (d, Raise KeyError)
    | Some e => if (length (points e) =? 0)%nat then sort_entry k d = (d, Raise ValueError)
                else sort_entry k d = (put k (sorted_entry e) d, Ok tt)
    end.
Proof.
  intros k d. unfold sort_entry, cset. destruct (look k d) as [e|]; [|reflexivity].
  unfold sorted_entry. fold (points e). pose proof (sort_perm (points e)) as P. apply Permutation_length in P.
  cbv zeta. rewrite P. destruct (sort_points (points e)); reflexivity.
Qed.

Lemma points_sorted_entry : forall e, points (sorted_entry e) = sort_points (points e).
Proof. intros e. unfold sorted_entry, points at 1. simpl. apply combine_split_pts. Qed.
Lemma sorted_entry_consistent : forall e, entry_consistent e -> entry_consistent (sorted_entry e).
Proof.
  intros e [H1 H2]. unfold sorted_entry. split; simpl; [rewrite !map_length; reflexivity|].
  apply Forall_forall. intros c Hc. apply in_map_iff in Hc. destruct Hc as [[t c'] [<- Hc]].
  apply (Permutation_in _ (Permutation_sym (sort_perm (points e)))) in Hc. unfold points in Hc.
  apply in_combine_r in Hc. rewrite Forall_forall in H2. exact (H2 c' Hc).
Qed.

Lemma sort_entry_consistent : forall k d, consistent d -> consistent (fst (sort_entry k d)).
Proof.
  intros k d C. pose proof (sort_entry_cases k d) as H. destruct (look k d) as [e|] eqn:E; [|rewrite H; exact C].
  destruct (_ =? 0)%nat; rewrite H; [exact C|]. apply consistent_put; [exact C|].
  apply sorted_entry_consistent, (proj2 C _ _ E).
Qed.

Lemma run_all_any : forall (S O A : Type) (step : O -> cmd S A) (Inv : S -> Prop),
    (forall o s, Inv s -> Inv (fst (step o s))) -> forall ops s, Inv s -> Inv (fst (run_all step ops s)).
Proof.
  intros S O A step Inv H ops; induction ops as [|o ops IH]; intros s Hs; simpl; [exact Hs|].
  pose proof (H o s Hs) as Ho. destruct (step o s) as [s1 [a|e]]; [apply IH|]; exact Ho.
Qed.

Lemma sort_consistent : forall es d, consistent d -> consistent (fst (sort es d)).
Proof. intros es d C. unfold sort. apply run_all_any; [|exact C]. intros; apply sort_entry_consistent; assumption. Qed.

Lemma extend_entry_consistent : forall o k d, consistent o -> consistent d -> consistent (fst (extend_entry o k d)).
Proof.
  intros o k d Co C. unfold extend_entry. destruct (look k d); [|exact C]. destruct (look k o) as [e'|] eqn:E'; [|exact C].
  destruct (size_eqb _ _); [|exact C]. apply insert_consistent; [exact C|]. apply (proj2 Co _ _ E').
Qed.
Lemma extend_consistent : forall o d, consistent o -> consistent d -> consistent (fst (extend o d)).
Proof.
  intros o d Co C. unfold extend, cbind.
  assert (C1 : consistent (fst (run_all (extend_entry o) (dkeys o) d))).
  { apply run_all_any; [|exact C]. intros; apply extend_entry_consistent; assumption. }
  destruct (run_all (extend_entry o) (dkeys o) d) as [d1 [[]|x]]; [apply sort_consistent|]; exact C1.
Qed.

Lemma step_consistent : forall default op d, proper op -> consistent d -> consistent (fst (data_step default op d)).
Proof.
  intros default op d P C. destruct op; simpl in P; cbn [data_step].
  - unfold create_entry, cset. destruct names as [ns|]; [|destruct size as [n|]; [|exact C]]; cbn [fst];
      (apply consistent_put; [exact C|]; split; simpl; [reflexivity|constructor]).
  - apply insert_consistent; assumption.
  - apply sort_consistent; assumption.
  - apply extend_consistent; assumption.
Qed.
Lemma history_consistent : forall default ops d,
    Forall proper ops -> consistent d -> consistent (run_caught (data_step default) ops d).
Proof.
  intros default ops. unfold run_caught. induction ops as [|op ops IH]; intros d P C; simpl; [exact C|].
  inversion P; subst. apply IH; [assumption|]. apply step_consistent; assumption.
Qed.

(** ** Insertions *)

Lemma points_append : forall e v ts value,
    entry_consistent e -> length ts = length (mcols value) -> mcols v = mcols (e_values e) ++ mcols value ->
    points (set_e_time (e_time e ++ ts) (set_e_values v e)) = points e ++ combine ts (mcols value).
Proof.
  intros e v ts value [H _] L V. unfold points. cbn [set_e_time set_e_values e_time e_values]. rewrite V.
  clear V. revert H. generalize (mcols (e_values e)) as c. generalize (e_time e) as t.
  induction t as [|a t IH]; intros c H; destruct c as [|b c]; simpl in *; try discriminate; [reflexivity|].
  rewrite IH by congruence. reflexivity.
Qed.

Lemma time_row_times : forall t ts, time_row t = Ok ts -> ts = times_of t.
Proof. intros [[|a l]|q|l] ts H; simpl in *; congruence. Qed.

Lemma put_put : forall k a b d, put k a (put k b d) = put k a d.
Proof.
  intros k a b d. unfold put. induction d as [|[x y] d IH]; simpl; [rewrite String.eqb_refl; reflexivity|].
  destruct (String.eqb k x) eqn:E; simpl; rewrite E; [reflexivity|]. rewrite IH. reflexivity.
Qed.

Lemma insert_ok : forall k time value d d',
    sized d -> consistent d -> insert_data k time value d = (d', Ok tt) ->
    exists e e', look k d = Some e /\ d' = put k e' d /\ same_labels e e' /\
      fits (e_values e) value /\ length (times_of time) = length (mcols value) /\
      points e' = points e ++ combine (times_of time) (mcols value) /\
      (e_values e <> null -> mrows (e_values e') = mrows (e_values e)) /\
      (e_values e = null -> mrows (e_values e') = mrows value).
Proof.
  intros k time value d d' S C H. pose proof (insert_cases k time value d) as Hc.
  destruct (time_row time) as [ts|x] eqn:Et; [|congruence]. apply time_row_times in Et. subst ts.
  destruct (Nat.eqb_spec (length (times_of time)) (length (mcols value))) as [L|]; cbn [negb] in Hc; [|congruence].
  destruct (look k d) as [e|] eqn:El; [|congruence].
  destruct (horzcat (e_values e) value) as [v|] eqn:Ev; [|congruence]. cbv zeta in Hc.
  pose proof (S k e El) as Se. destruct (e_size e) eqn:Es; [|contradiction]. rewrite Hc in H. injection H as <-.
  apply horzcat_ok in Ev. destruct Ev as [F [V1 [_ [V3 V4]]]].
  exists e. eexists. split; [reflexivity|]. split; [apply put_put|].
  split; [repeat split|]. split; [exact F|]. split; [exact L|].
  split; [apply points_append; [exact (proj2 C k e El)|exact L|exact V1]|].
  cbn [set_e_time set_e_values e_values]. split; [exact V3|]. intros N. rewrite (V4 N). reflexivity.
Qed.

Lemma insert_iff : forall k time value d,
    sized d ->
    (snd (insert_data k time value d) = Ok tt <->
     time <> TimeList [] /\ length (times_of time) = length (mcols value) /\
     exists e, look k d = Some e /\ fits (e_values e) value) /\
    (forall x, snd (insert_data k time value d) = Raise x -> fst (insert_data k time value d) = d).
Proof.
  intros k time value d S. pose proof (insert_cases k time value d) as Hc.
  assert (T : time_row time = Ok (times_of time) /\ time <> TimeList [] \/ time_row time = Raise NotImplementedErr /\ time = TimeList []).
  { destruct time as [[|a l]|q|l]; simpl; [right; auto|left|left|left]; split; congruence. }
  destruct T as [[T Nt]|[T Nt]]; rewrite T in Hc.
  2:{ rewrite Hc. split; [split; [discriminate|tauto]|reflexivity]. }
  destruct (Nat.eqb_spec (length (times_of time)) (length (mcols value))) as [L|L]; cbn [negb] in Hc.
  2:{ rewrite Hc. split; [split; [discriminate|tauto]|reflexivity]. }
  destruct (look k d) as [e|] eqn:El.
  2:{ rewrite Hc. split; [split; [discriminate|]|reflexivity]. intros [_ [_ [e [He _]]]]. discriminate. }
  destruct (horzcat (e_values e) value) as [v|x] eqn:Ev.
  - cbv zeta in Hc. pose proof (S k e El) as Se. destruct (e_size e); [|contradiction]. rewrite Hc.
    split; [|discriminate]. split; [intros _|reflexivity]. split; [exact Nt|]. split; [exact L|]. exists e. split; [reflexivity|].
    apply horzcat_ok in Ev. apply Ev.
  - rewrite Hc. split; [|reflexivity]. split; [discriminate|]. intros [_ [_ [e' [He F]]]]. injection He as <-.
    apply horzcat_total in F. destruct F. congruence.
Qed.

(** ** Sorting a data set *)

Lemma sort_entries_look : forall es d d',
    NoDup es -> run_all sort_entry es d = (d', Ok tt) ->
    dkeys d' = dkeys d /\
    forall k, look k d' = if in_dec string_dec k es then option_map sorted_entry (look k d) else look k d.
Proof.
  induction es as [|a es IH]; intros d d' N H; simpl in H.
  - injection H as <-. split; [reflexivity|]. intros k. reflexivity.
  - inversion N; subst. pose proof (sort_entry_cases a d) as Hc.
    destruct (sort_entry a d) as [d1 [[]|]] eqn:E; [|discriminate].
    destruct (look a d) as [e|] eqn:El; [|discriminate]. destruct (length (points e) =? 0)%nat; [discriminate|].
    injection Hc as ->. apply IH in H; [|assumption]. destruct H as [K H]. split; [rewrite K; apply (keys_put_in a e); exact El|].
    intros k. rewrite H. destruct (string_dec a k) as [->|Na].
    + destruct (in_dec string_dec k es); [contradiction|]. rewrite look_put_same, El.
      destruct (in_dec string_dec k (k :: es)) as [_|X]; [reflexivity|exfalso; apply X; left; reflexivity].
    + rewrite look_put_other by congruence.
      destruct (in_dec string_dec k es) as [I|I]; destruct (in_dec string_dec k (a :: es)) as [J|J]; try reflexivity.
      * exfalso; apply J; right; exact I.
      * exfalso. destruct J; [congruence|contradiction].
Qed.

Lemma sort_entries_iff : forall es d,
    (forall k, In k es -> exists e, look k d = Some e /\ points e <> []) <->
    snd (run_all sort_entry es d) = Ok tt.
Proof.
  induction es as [|a es IH]; intros d; simpl; [split; [reflexivity|intros _ k []]|].
  pose proof (sort_entry_cases a d) as Hc. destruct (look a d) as [e|] eqn:El.
  2:{ rewrite Hc. simpl. split; [|discriminate]. intros H. destruct (H a (or_introl eq_refl)) as [e [He _]]. congruence. }
  destruct (Nat.eqb_spec (length (points e)) 0) as [L|L].
  { rewrite Hc. simpl. split; [|discriminate]. intros H. destruct (H a (or_introl eq_refl)) as [e' [He Hp]].
    exfalso. apply Hp. assert (e' = e) by congruence. subst. apply length_zero_iff_nil, L. }
  rewrite Hc. rewrite <- IH. split.
  - intros H k Hk. rewrite look_put. destruct (String.eqb_spec k a) as [->|].
    + exists (sorted_entry e). split; [reflexivity|]. rewrite points_sorted_entry. intros Z.
      pose proof (sort_perm (points e)) as P. rewrite Z in P. apply Permutation_length in P. apply L. exact P.
    + apply H. right; exact Hk.
  - intros H k [<-|Hk].
    + exists e. split; [exact El|]. intros Z. apply L. rewrite Z. reflexivity.
    + specialize (H k Hk). rewrite look_put in H. destruct (String.eqb_spec k a) as [Ek|]; [rewrite Ek|exact H].
      exists e. split; [exact El|]. intros Z. apply L. rewrite Z. reflexivity.
Qed.

Lemma sorted_labels : forall e, same_labels e (sorted_entry e).
Proof. intros e. repeat split. Qed.

Lemma sort_all : forall d d', consistent d -> sort None d = (d', Ok tt) ->
    dkeys d' = dkeys d /\
    forall k e, look k d = Some e -> exists e', look k d' = Some e' /\ same_labels e e' /\
      mrows (e_values e') = mrows (e_values e) /\ sorting (points e) (points e').
Proof.
  intros d d' C H. unfold sort in H. apply sort_entries_look in H; [|apply C]. destruct H as [K H].
  split; [exact K|]. intros k e El. exists (sorted_entry e). split.
  - rewrite H, El. destruct (in_dec string_dec k (dkeys d)) as [_|N]; [reflexivity|].
    exfalso. apply N, look_In. congruence.
  - split; [apply sorted_labels|]. split; [reflexivity|]. rewrite points_sorted_entry. apply sort_points_sorting.
Qed.
Lemma sort_none_iff : forall d,
    snd (sort None d) = Ok tt <-> (forall k e, look k d = Some e -> points e <> []).
Proof.
  intros d. unfold sort. rewrite <- sort_entries_iff. split.
  - intros H k e El. destruct (H k) as [e' [He Hp]]; [apply look_In; congruence|]. congruence.
  - intros H k Hk. apply look_In in Hk. destruct (look k d) as [e|] eqn:El; [|congruence]. exists e. split; [reflexivity|]. eapply H; exact El.
Qed.
Lemma sort_some : forall es d d', NoDup es -> sort (Some es) d = (d', Ok tt) ->
    dkeys d' = dkeys d /\
    forall k e, look k d = Some e -> exists e', look k d' = Some e' /\ same_labels e e' /\
      (In k es -> sorting (points e) (points e')) /\ (~ In k es -> e' = e).
Proof.
  intros es d d' N H. unfold sort in H. apply sort_entries_look in H; [|exact N]. destruct H as [K H].
  split; [exact K|]. intros k e El. rewrite H, El. destruct (in_dec string_dec k es) as [I|I]; simpl.
  - exists (sorted_entry e). split; [reflexivity|]. split; [apply sorted_labels|]. split; [|contradiction].
    intros _. rewrite points_sorted_entry. apply sort_points_sorting.
  - exists e. split; [reflexivity|]. split; [repeat split|]. split; [contradiction|reflexivity].
Qed.

(** ** Extending *)

Lemma size_eqb_eq : forall a b, size_eqb a b = true <-> a = b.
Proof.
  intros [a|] [b|]; simpl; split; intros H; try discriminate; try reflexivity.
  - apply Nat.eqb_eq in H. congruence.
  - injection H as ->. apply Nat.eqb_refl.
Qed.

Lemma sized_put : forall k e e' d, sized d -> look k d = Some e -> e_size e' = e_size e -> sized (put k e' d).
Proof.
  intros k e e' d S El E k' x Hl. rewrite look_put in Hl. destruct (String.eqb_spec k' k).
  - injection Hl as <-. rewrite E. eapply S; exact El.
  - eapply S; exact Hl.
Qed.

Lemma extend_entries : forall other ks d d',
    NoDup ks -> sized d -> consistent d -> consistent other ->
    run_all (extend_entry other) ks d = (d', Ok tt) ->
    dkeys d' = dkeys d /\ consistent d' /\
    (forall k, In k ks -> exists e e', look k d = Some e /\ look k other = Some e' /\
        e_size e = e_size e' /\ fits (e_values e) (e_values e')) /\
    (forall k e, look k d = Some e -> exists e1, look k d' = Some e1 /\ same_labels e e1 /\
        points e1 = points e ++ (if in_dec string_dec k ks then match contents k other with Some l => l | None => [] end else [])).
Proof.
  intros other ks. induction ks as [|a ks IH]; intros d d' N S C Co H; simpl in H.
  - injection H as <-. split; [reflexivity|]. split; [exact C|]. split; [intros k []|].
    intros k e El. exists e. split; [exact El|]. split; [repeat split|]. simpl. rewrite app_nil_r. reflexivity.
  - inversion N; subst. destruct (extend_entry other a d) as [d1 [[]|]] eqn:E; [|discriminate].
    unfold extend_entry in E. destruct (look a d) as [e|] eqn:El; [|discriminate].
    destruct (look a other) as [eo|] eqn:Eo; [|discriminate].
    destruct (size_eqb (e_size e) (e_size eo)) eqn:Es; [|discriminate]. apply size_eqb_eq in Es.
    pose proof (insert_consistent a (TimeRow (e_time eo)) (e_values eo) d C (proj2 (proj2 Co _ _ Eo))) as C1.
    rewrite E in C1. cbn [fst] in C1.
    apply insert_ok in E; try assumption. destruct E as [e0 [e' [E0 [-> [Lab [Fit [_ [Pt _]]]]]]]].
    assert (e0 = e) by congruence. subst e0. clear E0.
    assert (S1 : sized (put a e' d)) by (eapply sized_put; [exact S|exact El|apply Lab]).
    destruct (IH _ _ ltac:(assumption) S1 C1 Co H) as [K [C2 [R1 R2]]].
    split; [rewrite K; eapply keys_put_in; exact El|]. split; [exact C2|]. split.
    + intros k [<-|Hk].
      * exists e, eo. auto.
      * destruct (R1 k Hk) as [x [x' [X1 X2]]]. rewrite look_put in X1. destruct (String.eqb_spec k a) as [->|]; [contradiction|].
        exists x, x'. tauto.
    + intros k x Hx. destruct (string_dec k a) as [->|Nk].
      * assert (x = e) by congruence. subst x. destruct (R2 a e' (look_put_same _ _ _)) as [e1 [L1 [Lab1 P1]]].
        exists e1. split; [exact L1|]. split; [unfold same_labels in *; destruct Lab as [? [? ?]], Lab1 as [? [? ?]]; repeat split; congruence|].
        rewrite P1, Pt. destruct (in_dec string_dec a ks); [contradiction|]. rewrite app_nil_r.
        destruct (in_dec string_dec a (a :: ks)) as [_|X]; [|exfalso; apply X; left; reflexivity].
        unfold contents. rewrite Eo. reflexivity.
      * destruct (R2 k x) as [e1 [L1 [Lab1 P1]]]; [rewrite look_put_other by exact Nk; exact Hx|].
        exists e1. split; [exact L1|]. split; [exact Lab1|]. rewrite P1. f_equal.
        destruct (in_dec string_dec k ks) as [I|I]; destruct (in_dec string_dec k (a :: ks)) as [J|J]; try reflexivity.
        -- exfalso; apply J; right; exact I.
        -- exfalso; destruct J; [congruence|contradiction].
Qed.

Lemma sorting_trans_app : forall a b c, a = b -> sorting b c -> sorting a c.
Proof. intros; subst; assumption. Qed.

Lemma extend_ok : forall other d d',
    sized d -> consistent d -> consistent other -> extend other d = (d', Ok tt) ->
    compatible d other /\ filled d other /\ dkeys d' = dkeys d /\ consistent d' /\
    forall k e, look k d = Some e -> exists e1, look k d' = Some e1 /\ same_labels e e1 /\
      sorting (points e ++ match contents k other with Some l => l | None => [] end) (points e1).
Proof.
  intros other d d' S C Co H.
  pose proof (extend_consistent other d Co C) as Cd'. rewrite H in Cd'. cbn [fst] in Cd'.
  unfold extend in H. apply cbind_ok in H. destruct H as [d1 [[] [H1 H2]]].
  apply extend_entries in H1; [|apply Co|exact S|exact C|exact Co]. destruct H1 as [K [C1 [R1 R2]]].
  assert (R2' : forall k e, look k d = Some e -> exists e1, look k d1 = Some e1 /\ same_labels e e1 /\
    points e1 = points e ++ match contents k other with Some l => l | None => [] end).
  { intros k e El. destruct (R2 k e El) as [e1 [L1 [Lab P]]]. exists e1. split; [exact L1|]. split; [exact Lab|].
    rewrite P. f_equal. destruct (in_dec string_dec k (dkeys other)) as [I|I]; [reflexivity|].
    unfold contents. destruct (look k other) eqn:E; [|reflexivity]. exfalso. apply I, look_In. congruence. }
  pose proof (proj1 (sort_none_iff d1)) as Sn. rewrite H2 in Sn. specialize (Sn eq_refl).
  apply sort_all in H2; [|exact C1]. destruct H2 as [K2 R3].
  split; [|split; [|split; [congruence|split; [exact Cd'|]]]].
  - intros k e' He'. destruct (R1 k) as [e [e2 [X1 [X2 [X3 X4]]]]]; [apply look_In; congruence|].
    exists e. assert (e2 = e') by congruence. subst e2. auto.
  - intros k e El. destruct (R2' k e El) as [e1 [L1 [_ P]]]. pose proof (Sn k e1 L1) as Np. rewrite P in Np.
    destruct (points e) eqn:Ep; [right|left; discriminate]. unfold contents in Np. destruct (look k other) as [e'|]; simpl in Np.
    + exists e'. auto.
    + contradiction Np; reflexivity.
  - intros k e El. destruct (R2' k e El) as [e1 [L1 [Lab P]]]. destruct (R3 k e1 L1) as [e2 [L2 [Lab2 [_ So]]]].
    exists e2. split; [exact L2|]. split; [unfold same_labels in *; destruct Lab as [? [? ?]], Lab2 as [? [? ?]]; repeat split; congruence|].
    rewrite <- P. exact So.
Qed.

Lemma extend_succeeds : forall other d,
    sized d -> consistent d -> consistent other -> compatible d other -> filled d other ->
    snd (extend other d) = Ok tt.
Proof.
  intros other d S C Co Cmp Fil.
  assert (G : forall ks d0, NoDup ks -> sized d0 -> consistent d0 ->
     (forall k, In k ks -> exists e e', look k d0 = Some e /\ look k other = Some e' /\ e_size e = e_size e' /\ fits (e_values e) (e_values e')) ->
     exists d1, run_all (extend_entry other) ks d0 = (d1, Ok tt)).
  { induction ks as [|a ks IH]; intros d0 N S0 C0 H0; simpl; [eexists; reflexivity|]. inversion N; subst.
    destruct (H0 a (or_introl eq_refl)) as [e [e' [X1 [X2 [X3 X4]]]]].
    assert (I : snd (insert_data a (TimeRow (e_time e')) (e_values e') d0) = Ok tt).
    { apply insert_iff; [exact S0|]. split; [discriminate|]. split; [apply (proj2 Co _ _ X2)|]. exists e. auto. }
    assert (E : extend_entry other a d0 = insert_data a (TimeRow (e_time e')) (e_values e') d0).
    { unfold extend_entry. rewrite X1, X2. rewrite (proj2 (size_eqb_eq _ _) X3). reflexivity. }
    pose proof (extend_entry_consistent other a d0 Co C0) as C1. rewrite E in *.
    destruct (insert_data a (TimeRow (e_time e')) (e_values e') d0) as [d1 r1] eqn:Ei. simpl in I. subst r1. cbn [fst] in C1.
    apply insert_ok in Ei; try assumption. destruct Ei as [e0 [e2 [E0 [-> [Lab _]]]]]. assert (e0 = e) by congruence. subst e0.
    apply IH; try assumption.
    - eapply sized_put; [exact S0|exact X1|apply Lab].
    - intros k Hk. destruct (H0 k (or_intror Hk)) as [x [x' Hx]]. exists x, x'.
      rewrite look_put_other by (intros ->; contradiction). exact Hx. }
  destruct (G (dkeys other) d (proj1 Co) S C) as [d1 H1].
  { intros k Hk. apply look_In in Hk. destruct (look k other) as [e'|] eqn:E'; [|congruence].
    destruct (Cmp k e' E') as [e He]. exists e, e'. tauto. }
  unfold extend, cbind. rewrite H1. apply sort_none_iff.
  apply extend_entries in H1; [|apply Co|exact S|exact C|exact Co]. destruct H1 as [K [C1 [_ R2]]].
  intros k e1 L1. destruct (look k d) as [e|] eqn:El.
  2:{ exfalso. assert (X : In k (dkeys d1)) by (apply look_In; congruence). rewrite K in X. apply look_In in X. congruence. }
  destruct (R2 k e El) as [e2 [L2 [_ P]]]. assert (e2 = e1) by congruence. subst e2. rewrite P.
  destruct (Fil k e El) as [Np|[e' [Eo Np]]].
  - destruct (points e); [contradiction Np; reflexivity|discriminate].
  - destruct (in_dec string_dec k (dkeys other)) as [_|X]; [|exfalso; apply X, look_In; congruence].
    unfold contents. rewrite Eo. simpl. intros Z. apply app_eq_nil in Z. apply Np, Z.
Qed.

Lemma extend_unknown : forall other d,
    (exists k, look k other <> None /\ look k d = None) -> exists x, snd (extend other d) = Raise x.
Proof.
  intros other d [k [H1 H2]]. apply look_In in H1.
  assert (G : forall ks d0, In k ks -> look k d0 = None -> exists x, snd (run_all (extend_entry other) ks d0) = Raise x).
  { induction ks as [|a ks IH]; intros d0 Hk Hn; [destruct Hk|]. simpl.
    destruct (string_dec a k) as [->|Na].
    - unfold extend_entry. rewrite Hn. eexists; reflexivity.
    - destruct Hk as [->|Hk]; [contradiction|].
      assert (Ln : look k (fst (extend_entry other a d0)) = None).
      { unfold extend_entry. destruct (look a d0) as [e|] eqn:Ea; [|exact Hn]. destruct (look a other) as [e'|]; [|exact Hn].
        destruct (size_eqb _ _); [|exact Hn]. pose proof (insert_cases a (TimeRow (e_time e')) (e_values e') d0) as Hc.
        simpl in Hc. destruct (negb _); [rewrite Hc; exact Hn|]. rewrite Ea in Hc.
        destruct (horzcat _ _); [|rewrite Hc; exact Hn].
        destruct (e_size e); [rewrite Hc; simpl; rewrite !look_put_other by congruence; exact Hn|].
        destruct (look "entry" _) eqn:Le in Hc; rewrite Hc; simpl; [|rewrite !look_put_other by congruence; exact Hn].
        destruct (string_dec k "entry") as [->|Ne].
        - rewrite !look_put_other in Le by congruence. congruence.
        - rewrite !look_put_other by congruence. exact Hn. }
      destruct (extend_entry other a d0) as [d1 [[]|x]]; [apply IH; assumption|eexists; reflexivity]. }
  destruct (G _ _ H1 H2) as [x Hx]. unfold extend, cbind.
  destruct (run_all (extend_entry other) (dkeys other) d) as [d1 [[]|y]]; [discriminate|]. eexists; reflexivity.
Qed.

(** ** Simulation results *)

Lemma same_dim_ok : forall k o r, size_of k r <> None -> size_of k o <> None ->
    same_dim k o r = if size_eqb (match size_of k r with Some n => n | None => None end)
                                 (match size_of k o with Some n => n | None => None end)
                     then (r, Ok tt) else (r, Raise AnyException).
Proof.
  intros k o r H1 H2. unfold same_dim, dim, size_of in *. destruct (look k (r_data r)); [|simpl in H1; congruence].
  destruct (look k (r_data o)); [|simpl in H2; congruence]. reflexivity.
Qed.
Lemma size_of_some : forall k r, look k (r_data r) <> None -> size_of k r <> None.
Proof. intros k r H. unfold size_of. destruct (look k (r_data r)); [discriminate|congruence]. Qed.

Lemma sizes_dec : forall k o r, look k (r_data r) <> None -> look k (r_data o) <> None ->
    (size_of k r = size_of k o /\ same_dim k o r = (r, Ok tt)) \/
    (size_of k r <> size_of k o /\ same_dim k o r = (r, Raise AnyException)).
Proof.
  intros k o r H1 H2. rewrite same_dim_ok by (apply size_of_some; assumption). unfold size_of.
  destruct (look k (r_data r)) as [e|]; [|congruence]. destruct (look k (r_data o)) as [e'|]; [|congruence]. simpl.
  destruct (size_eqb (e_size e) (e_size e')) eqn:E; [left|right]; split; try reflexivity.
  - apply size_eqb_eq in E. congruence.
  - intros X. injection X as X. apply size_eqb_eq in X. congruence.
Qed.

Lemma sim_extend_refused : forall other r, well_formed r -> well_formed other -> ~ same_sizes r other ->
    sim_extend other r = (r, Raise AnyException).
Proof.
  intros other r [_ [_ [X1 [Y1 U1]]]] [_ [_ [X2 [Y2 U2]]]] N. unfold sim_extend, cbind.
  destruct (sizes_dec "x" other r X1 X2) as [[E1 D1]|[E1 D1]]; rewrite D1; [|reflexivity].
  destruct (sizes_dec "y" other r Y1 Y2) as [[E2 D2]|[E2 D2]]; rewrite D2; [|reflexivity].
  destruct (sizes_dec "u" other r U1 U2) as [[E3 D3]|[E3 D3]]; rewrite D3; [|reflexivity].
  exfalso. apply N. repeat split; assumption.
Qed.

Lemma sim_extend_same : forall other r, well_formed r -> well_formed other -> same_sizes r other ->
    exists lo hi, smaller (r_t_0 r) (r_t_0 other) lo /\ larger (r_t_f r) (r_t_f other) hi /\
    sim_extend other r =
      let '(d, x) := extend (r_data other) (r_data r) in
      (mkSimResult lo hi (r_elements r + r_elements other) d, x).
Proof.
  intros other r [_ [_ [X1 [Y1 U1]]]] [_ [_ [X2 [Y2 U2]]]] [E1 [E2 E3]]. unfold sim_extend, cbind.
  destruct (sizes_dec "x" other r X1 X2) as [[_ D1]|[N D1]]; [|contradiction]. rewrite D1.
  destruct (sizes_dec "y" other r Y1 Y2) as [[_ D2]|[N D2]]; [|contradiction]. rewrite D2.
  destruct (sizes_dec "u" other r U1 U2) as [[_ D3]|[N D3]]; [|contradiction]. rewrite D3.
  eexists. eexists. split; [|split; [|unfold cmodify, on_data; cbn [r_data r_t_0 r_t_f r_elements]; reflexivity]].
  - destruct (Qle_bool (r_t_0 r) (r_t_0 other)) eqn:E.
    + apply Qle_bool_iff in E. split; [left; reflexivity|]. split; [apply Qle_refl|exact E].
    + split; [right; reflexivity|]. split; [|apply Qle_refl].
      destruct (Qlt_le_dec (r_t_0 other) (r_t_0 r)) as [L|L]; [lra|]. apply Qle_bool_iff in L. congruence.
  - destruct (Qle_bool (r_t_f other) (r_t_f r)) eqn:E.
    + apply Qle_bool_iff in E. split; [left; reflexivity|]. split; [apply Qle_refl|exact E].
    + split; [right; reflexivity|]. split; [|apply Qle_refl].
      destruct (Qlt_le_dec (r_t_f r) (r_t_f other)) as [L|L]; [lra|]. apply Qle_bool_iff in L. congruence.
Qed.

Lemma sim_extend_ok : forall other r r', well_formed r -> well_formed other ->
    sim_extend other r = (r', Ok tt) ->
    same_sizes r other /\ well_formed r' /\
    smaller (r_t_0 r) (r_t_0 other) (r_t_0 r') /\ larger (r_t_f r) (r_t_f other) (r_t_f r') /\
    forall k e, look k (r_data r) = Some e -> exists e1, look k (r_data r') = Some e1 /\ same_labels e e1 /\
      sorting (points e ++ match contents k (r_data other) with Some l => l | None => [] end) (points e1).
Proof.
  intros other r r' W Wo H.
  assert (Sd : same_sizes r other \/ ~ same_sizes r other).
  { destruct W as [_ [_ [X1 [Y1 U1]]]], Wo as [_ [_ [X2 [Y2 U2]]]]. unfold same_sizes.
    destruct (sizes_dec "x" other r X1 X2) as [[E1 _]|[E1 _]]; [|tauto].
    destruct (sizes_dec "y" other r Y1 Y2) as [[E2 _]|[E2 _]]; [|tauto].
    destruct (sizes_dec "u" other r U1 U2) as [[E3 _]|[E3 _]]; tauto. }
  destruct Sd as [Sd|Sd]; [|rewrite (sim_extend_refused _ _ W Wo Sd) in H; discriminate].
  split; [exact Sd|]. destruct (sim_extend_same other r W Wo Sd) as [lo [hi [Lo [Hi E]]]]. rewrite E in H. clear E.
  destruct (extend (r_data other) (r_data r)) as [d x] eqn:Ex. injection H as <- ->. cbn [r_t_0 r_t_f r_data].
  destruct W as [C [S [X1 [Y1 U1]]]]. destruct Wo as [Co _].
  apply extend_ok in Ex; try assumption. destruct Ex as [_ [_ [K [C' R]]]].
  split; [|split; [exact Lo|split; [exact Hi|exact R]]].
  assert (S' : sized d).
  { intros k e1 L1. destruct (look k (r_data r)) as [e|] eqn:El.
    - destruct (R k e El) as [e2 [L2 [[_ [Es _]] _]]]. assert (e2 = e1) by congruence. subst. rewrite Es. exact (S k e El).
    - exfalso. assert (X : In k (dkeys d)) by (apply look_In; congruence). rewrite K in X. apply look_In in X. congruence. }
  split; [exact C'|]. split; [exact S'|]. split; [|split].
  - apply look_In. cbn [r_data]. rewrite K. apply look_In, X1.
  - apply look_In. cbn [r_data]. rewrite K. apply look_In, Y1.
  - apply look_In. cbn [r_data]. rewrite K. apply look_In, U1.
Qed.

Lemma last_column_latest : forall e, entry_consistent e -> chronological (points e) -> points e <> [] ->
    exists c, last_column (e_values e) = Ok c /\ latest (points e) c.
Proof.
  intros e [L _] Ch Np. destruct (exists_last Np) as [pre [[t c] E]]. exists c. split.
  - unfold last_column. assert (M : mcols (e_values e) = map snd (points e)).
    { unfold points. revert L. generalize (mcols (e_values e)). generalize (e_time e).
      induction l as [|a l IH]; intros [|b l'] L; simpl in *; try discriminate; [reflexivity|]. f_equal. apply IH. congruence. }
    rewrite M, E, map_app, rev_app_distr. reflexivity.
  - exists pre, t. split; [exact E|]. rewrite E in *. clear E Np.
    apply Forall_app. split; [|repeat constructor; apply Qle_refl].
    induction pre as [|p pre IH]; [constructor|]. simpl in Ch. inversion Ch; subst. constructor; [|auto].
    apply Forall_app in H2. destruct H2 as [_ H2]. inversion H2; subst. assumption.
Qed.

Lemma final_condition_latest : forall r ex ey eu, well_formed r ->
    look "x" (r_data r) = Some ex -> look "y" (r_data r) = Some ey -> look "u" (r_data r) = Some eu ->
    (forall e, In e [ex; ey; eu] -> chronological (points e) /\ points e <> []) ->
    exists x y u, final_condition r = Ok (x, y, u) /\
      latest (points ex) x /\ latest (points ey) y /\ latest (points eu) u.
Proof.
  intros r ex ey eu [[_ C] _] Hx Hy Hu H.
  destruct (H ex) as [A1 A2]; [simpl; tauto|]. destruct (H ey) as [B1 B2]; [simpl; tauto|]. destruct (H eu) as [D1 D2]; [simpl; tauto|].
  destruct (last_column_latest ex (C _ _ Hx) A1 A2) as [x [E1 L1]].
  destruct (last_column_latest ey (C _ _ Hy) B1 B2) as [y [E2 L2]].
  destruct (last_column_latest eu (C _ _ Hu) D1 D2) as [u [E3 L3]].
  exists x, y, u. unfold final_condition. rewrite Hx, Hy, Hu, E1, E2, E3. auto.
Qed.

Lemma new_sim_result_wf : forall default n_x n_y n_u names t_0 t_f n,
    let r := new_sim_result default n_x n_y n_u names t_0 t_f n in
    well_formed r /\ r_elements r = 0%nat /\ r_t_0 r = t_0 /\ r_t_f r = t_f /\
    contents "x" (r_data r) = Some [] /\ contents "y" (r_data r) = Some [] /\ contents "u" (r_data r) = Some [].
Proof.
  intros default n_x n_y n_u [[nx ny] nu] t_0 t_f n. cbv zeta. unfold new_sim_result, well_formed.
  cbn [r_elements r_t_0 r_t_f r_data]. unfold create_entry, cbind, cset.
  assert (ND : NoDup ["x"; "y"; "u"]%string).
  { repeat constructor; simpl; intros H; repeat (destruct H as [H|H]; [discriminate|]); exact H. }
  assert (G : forall ex ey eu, let d := put "u" eu (put "y" ey (put "x" ex [])) in
     (forall e, In e [ex; ey; eu] -> entry_consistent e /\ e_size e <> None /\ points e = []) ->
     (consistent d /\ sized d /\ look "x" d <> None /\ look "y" d <> None /\ look "u" d <> None) /\
     contents "x" d = Some [] /\ contents "y" d = Some [] /\ contents "u" d = Some []).
  { intros ex ey eu d H. subst d.
    assert (L : forall k e, look k (put "u" eu (put "y" ey (put "x" ex []))) = Some e -> In e [ex; ey; eu]).
    { intros k e. rewrite !look_put. destruct (String.eqb k "u"); [intros X; injection X as <-; simpl; tauto|].
      destruct (String.eqb k "y"); [intros X; injection X as <-; simpl; tauto|].
      destruct (String.eqb k "x"); [intros X; injection X as <-; simpl; tauto|]. discriminate. }
    split.
    - split; [split; [exact ND|intros k e X; apply L in X; apply H, X]|].
      split; [intros k e X; apply L in X; apply H, X|]. repeat split; discriminate.
    - unfold contents, look, put. simpl.
      destruct (H ex) as [_ [_ ->]]; [simpl; tauto|]. destruct (H ey) as [_ [_ ->]]; [simpl; tauto|].
      destruct (H eu) as [_ [_ ->]]; [simpl; tauto|]. auto. }
  assert (N : forall names n st, let e := mkEntry names (Some n) [] null st in
     entry_consistent e /\ e_size e <> None /\ points e = []).
  { intros. split; [split; [reflexivity|constructor]|]. split; [discriminate|reflexivity]. }
  destruct nx, ny, nu; cbn [fst];
    (match goal with |- context [put "u" ?eu (put "y" ?ey (put "x" ?ex []))] => specialize (G ex ey eu) end;
     cbv zeta in G; destruct G as [G1 G2];
     [intros e He; repeat (destruct He as [<-|He]; [apply N|]); destruct He|];
     split; [exact G1|split; [reflexivity|split; [reflexivity|split; [reflexivity|exact G2]]]]).
Qed.

Lemma columns_ok : forall l, one_height l -> exists v, columns (map snd l) = Ok v /\ mcols v = map snd l /\ rectangular v.
Proof.
  intros l [N [n H]]. destruct l as [|[t c] l]; [contradiction N; reflexivity|].
  unfold columns. cbn [map snd].
  assert (F : forallb (fun v => (length v =? length c)%nat) (c :: map snd l) = true).
  { inversion H; subst. simpl in *. rewrite Nat.eqb_refl. simpl. apply forallb_forall. intros v Hv.
    apply in_map_iff in Hv. destruct Hv as [p [<- Hp]]. rewrite Forall_forall in H3. apply Nat.eqb_eq, H3, Hp. }
  rewrite F. eexists. split; [reflexivity|]. split; [reflexivity|].
  unfold rectangular. cbn [mcols mrows]. apply Forall_forall. intros v Hv. rewrite forallb_forall in F. apply Nat.eqb_eq, F, Hv.
Qed.
Lemma columns_only : forall l v, columns (map snd l) = Ok v -> @one_height l /\ mcols v = map snd l /\ rectangular v.
Proof.
  intros l v H. assert (O : one_height l).
  { destruct l as [|[t c] l]; [discriminate|]. unfold columns in H. cbn [map snd] in H.
    destruct (forallb _ _) eqn:F in H; [|discriminate]. split; [discriminate|]. exists (length c).
    apply Forall_forall. intros p Hp. rewrite forallb_forall in F. apply Nat.eqb_eq, F.
    apply (in_map snd) in Hp. exact Hp. }
  split; [exact O|]. destruct (columns_ok l O) as [w [E R]]. rewrite E in H. injection H as <-. exact R.
Qed.

Lemma insert_into_empty : forall k l v d,
    sized d -> consistent d -> contents k d = Some [] -> columns (map snd l) = Ok v ->
    (exists e, look k d = Some e /\ e_values e = null) ->
    exists e', insert_data k (TimeRow (map fst l)) v d = (put k e' d, Ok tt) /\
      points e' = l /\ consistent (put k e' d) /\ sized (put k e' d).
Proof.
  intros k l v d S C Hc Hv [e [El En]]. apply columns_only in Hv. destruct Hv as [_ [Mv Rv]].
  assert (I : snd (insert_data k (TimeRow (map fst l)) v d) = Ok tt).
  { apply insert_iff; [exact S|]. split; [discriminate|]. split; [simpl; rewrite Mv, !map_length; reflexivity|].
    exists e. split; [exact El|]. left; exact En. }
  pose proof (insert_consistent k (TimeRow (map fst l)) v d C Rv) as C1.
  destruct (insert_data k (TimeRow (map fst l)) v d) as [d1 r1] eqn:E. simpl in I. subst r1.
  apply insert_ok in E; try assumption. destruct E as [e0 [e' [E0 [-> [Lab [_ [_ [P _]]]]]]]].
  assert (e0 = e) by congruence. subst e0. exists e'. split; [reflexivity|].
  split; [|split; [exact C1|eapply sized_put; [exact S|exact El|apply Lab]]].
  rewrite P. unfold contents in Hc. rewrite El in Hc. simpl in Hc. injection Hc as ->. simpl.
  rewrite Mv. apply combine_split_pts.
Qed.

Lemma new_values_null : forall default n_x n_y n_u names t_0 t_f n k,
    In k ["x"; "y"; "u"]%string ->
    exists e, look k (r_data (new_sim_result default n_x n_y n_u names t_0 t_f n)) = Some e /\ e_values e = null.
Proof.
  intros default n_x n_y n_u [[nx ny] nu] t_0 t_f n k H. unfold new_sim_result, create_entry, cbind, cset. cbn [r_data].
  destruct H as [<-|[<-|[<-|[]]]]; destruct nx, ny, nu; eexists; split; reflexivity.
Qed.

Lemma result_of_points : forall default m t_0 t_f names s,
    one_height (s_x s) -> one_height (s_y s) -> one_height (s_u s) ->
    exists r, result_of default m t_0 t_f names s = Ok r /\ well_formed r /\
      contents "x" (r_data r) = Some (s_x s) /\ contents "y" (r_data r) = Some (s_y s) /\
      contents "u" (r_data r) = Some (s_u s) /\ r_t_0 r = t_0 /\ r_t_f r = last t_f t_0.
Proof.
  intros default m t_0 t_f names s Hx Hy Hu. unfold result_of. cbv zeta.
  set (r0 := new_sim_result _ _ _ _ _ _ _ _).
  destruct (new_sim_result_wf default (length (m_x m)) (length (m_y m)) (length (m_u m)) names t_0 (last t_f t_0) (length t_f))
    as [[C [S _]] [_ [T0 [TF [Cx [Cy Cu]]]]]].
  pose proof (new_values_null default (length (m_x m)) (length (m_y m)) (length (m_u m)) names t_0 (last t_f t_0) (length t_f)) as Nv.
  fold r0 in C, S, T0, TF, Cx, Cy, Cu, Nv.
  destruct (columns_ok _ Hx) as [vx [Ex _]]. destruct (columns_ok _ Hy) as [vy [Ey _]]. destruct (columns_ok _ Hu) as [vu [Eu _]].
  unfold cbind. rewrite Ex.
  destruct (insert_into_empty "x" _ _ _ S C Cx Ex (Nv "x"%string ltac:(simpl; tauto))) as [e1 [I1 [P1 [C1 S1]]]]. rewrite I1, Ey.
  destruct (insert_into_empty "y" (s_y s) vy _ S1 C1) as [e2 [I2 [P2 [C2 S2]]]].
  { unfold contents. rewrite look_put_other by discriminate. exact Cy. }
  { exact Ey. }
  { rewrite look_put_other by discriminate. apply Nv. simpl; tauto. }
  rewrite I2, Eu.
  destruct (insert_into_empty "u" (s_u s) vu _ S2 C2) as [e3 [I3 [P3 [C3 S3]]]].
  { unfold contents. rewrite !look_put_other by discriminate. exact Cu. }
  { exact Eu. }
  { rewrite !look_put_other by discriminate. apply Nv. simpl; tauto. }
  rewrite I3. eexists. split; [reflexivity|]. unfold well_formed, contents. cbn [r_data r_t_0 r_t_f].
  rewrite !look_put_same, !(look_put_other "y" "u"), !(look_put_other "x" "u"), !(look_put_other "x" "y") by discriminate.
  rewrite !look_put_same. simpl. rewrite P1, P2, P3. repeat (split; [first [assumption|discriminate|reflexivity|(split; [assumption|split; [assumption|repeat split; discriminate]])]|]). assumption.
Qed.

Lemma w_C30_rows_are_size_refuted :
  exists default ops d, run_all (data_step default) ops [] = (d, Ok tt) /\ Forall proper ops /\
    exists e, look "x" d = Some e /\ e_size e = Some 2%nat /\ mrows (e_values e) = 3%nat.
Proof.
  exists (fun _ _ => ""%string), [DCreate "x" (Some 2%nat) None "plot"; DInsert "x" (TimeNum 0) (mkMat 3%nat [[1; 2; 3]])]%Q.
  eexists. split; [vm_compute; reflexivity|]. split; [repeat constructor|].
  eexists. repeat split; vm_compute; reflexivity.
Qed.

Lemma w_C30_size_from_data_refuted :
  exists default d d', create_entry default "x" None (Some ["a"%string]) "plot" [] = (d, Ok tt) /\
    insert_data "x" (TimeNum 0%Q) (mkMat 1%nat [[5]]%Q) d = (d', Raise KeyError) /\
    contents "x" d = Some [] /\ contents "x" d' = Some [(0, [5])]%Q.
Proof.
  exists (fun _ _ => ""%string). eexists. eexists. split; [vm_compute; reflexivity|].
  split; [vm_compute; reflexivity|]. split; vm_compute; reflexivity.
Qed.

Lemma w_C30_create_keeps_refuted :
  exists default d d', consistent d /\ contents "x" d = Some [(0, [5])]%Q /\
    create_entry default "x" (Some 1%nat) None "plot" d = (d', Ok tt) /\ contents "x" d' = Some [].
Proof.
  exists (fun _ _ => ""%string), [("x"%string, mkEntry ["a"%string] (Some 1%nat) [0%Q] (mkMat 1%nat [[5]]%Q) "plot")].
  eexists. split.
  { split; [repeat constructor; simpl; tauto|]. intros k e H. unfold look in H. simpl in H.
    destruct (String.eqb k "x"); [|discriminate]. injection H as <-. split; [reflexivity|repeat constructor]. }
  split; [vm_compute; reflexivity|]. split; vm_compute; reflexivity.
Qed.

Lemma w_C31_missing_entry_copied_refuted :
  exists d other, consistent d /\ consistent other /\ sized d /\ sized other /\
    contents "x" other = Some [(0, [1])]%Q /\ look "x" d = None /\
    extend other d = (d, Raise KeyError).
Proof.
  exists [], [("x"%string, mkEntry ["a"%string] (Some 1%nat) [0%Q] (mkMat 1%nat [[1]]%Q) "plot")].
  split; [split; [constructor|discriminate]|]. split.
  { split; [repeat constructor; simpl; tauto|]. intros k e H. unfold look in H. simpl in H.
    destruct (String.eqb k "x"); [|discriminate]. injection H as <-. split; [reflexivity|repeat constructor]. }
  split; [discriminate|]. split.
  { intros k e H. unfold look in H. simpl in H. destruct (String.eqb k "x"); [|discriminate]. injection H as <-. discriminate. }
  split; [vm_compute; reflexivity|]. split; vm_compute; reflexivity.
Qed.

Lemma w_C31_empty_entry_harmless_refuted :
  exists d other d', consistent d /\ consistent other /\ sized d /\ compatible d other /\
    contents "y" d = Some [] /\ contents "y" other = Some [] /\
    extend other d = (d', Raise ValueError) /\
    contents "x" d = Some [(0, [1])]%Q /\ contents "x" d' = Some [(0, [1]); (1, [2])]%Q.
Proof.
  pose (ex := fun t v => mkEntry ["a"%string] (Some 1%nat) [t] (mkMat 1%nat [[v]]) "plot").
  pose (ey := mkEntry ["b"%string] (Some 1%nat) [] null "plot").
  exists [("x"%string, ex 0 1)%Q; ("y"%string, ey)], [("x"%string, ex 1 2)%Q; ("y"%string, ey)]. eexists.
  assert (C : forall t v, consistent [("x"%string, ex t v)%Q; ("y"%string, ey)]).
  { intros t v. split; [repeat constructor; simpl; [intros [H|[]]; discriminate|tauto]|].
    intros k e H. unfold look in H. simpl in H. destruct (String.eqb k "x"); [injection H as <-; split; [reflexivity|repeat constructor]|].
    destruct (String.eqb k "y"); [injection H as <-; split; [reflexivity|repeat constructor]|discriminate]. }
  split; [apply C|]. split; [apply C|]. split.
  { intros k e H. unfold look in H. simpl in H. destruct (String.eqb k "x"); [injection H as <-; discriminate|].
    destruct (String.eqb k "y"); [injection H as <-; discriminate|discriminate]. }
  split.
  { intros k e H. unfold look in *. simpl in *. destruct (String.eqb k "x").
    - injection H as <-. eexists. split; [reflexivity|]. split; [reflexivity|right; right; reflexivity].
    - destruct (String.eqb k "y"); [|discriminate]. injection H as <-. eexists. split; [reflexivity|]. split; [reflexivity|left; reflexivity]. }
  split; [vm_compute; reflexivity|]. split; [vm_compute; reflexivity|]. split; [vm_compute; reflexivity|].
  split; vm_compute; reflexivity.
Qed.

Lemma w_C32_elements_refuted :
  forall default n_x n_y n_u names t_0 t_f n,
    r_elements (new_sim_result default n_x n_y n_u names t_0 t_f n) = 0%nat.
Proof. intros; apply new_sim_result_wf. Qed.

Lemma w_C32_failed_extension_atomic_refuted :
  exists r other r', well_formed r /\ well_formed other /\ same_sizes r other /\
    sim_extend other r = (r', Raise ValueError) /\ r_t_f r = 1%Q /\ r_t_f r' = 2%Q /\ r_data r' = r_data r.
Proof.
  pose (new := fun a b => new_sim_result (fun _ _ => ""%string) 1 0 0 (None, None, None) a b 1).
  exists (new 0 1)%Q, (new 1 2)%Q. eexists.
  split; [apply new_sim_result_wf|]. split; [apply new_sim_result_wf|]. split; [repeat split|].
  split; [vm_compute; reflexivity|]. repeat split; vm_compute; reflexivity.
Qed.

Lemma create_ok : forall default k size names style d d', create_entry default k size names style d = (d', Ok tt) ->
    exists e, look k d' = Some e /\ points e = [] /\ e_values e = null /\ e_size e = size /\ e_style e = style /\
      match names, size with
      | Some ns, _ => e_names e = ns
      | None, Some n => length (e_names e) = n /\ forall i, (i < n)%nat -> nth_error (e_names e) i = Some (default k i)
      | None, None => False
      end /\
      forall k', k' <> k -> look k' d' = look k' d.
Proof.
  intros default k size names style d d' H. unfold create_entry, cset in H.
  assert (P : forall ns, d' = put k (mkEntry ns size [] null style) d ->
              match names, size with
              | Some ns', _ => ns = ns'
              | None, Some n => length ns = n /\ forall i, (i < n)%nat -> nth_error ns i = Some (default k i)
              | None, None => False
              end ->
    exists e, look k d' = Some e /\ points e = [] /\ e_values e = null /\ e_size e = size /\ e_style e = style /\
      match names, size with
      | Some ns, _ => e_names e = ns
      | None, Some n => length (e_names e) = n /\ forall i, (i < n)%nat -> nth_error (e_names e) i = Some (default k i)
      | None, None => False
      end /\
      forall k', k' <> k -> look k' d' = look k' d).
  { intros ns -> N. exists (mkEntry ns size [] null style). rewrite look_put_same.
    split; [reflexivity|]. split; [reflexivity|]. split; [reflexivity|]. split; [reflexivity|]. split; [reflexivity|].
    split; [exact N|]. intros k' K. apply look_put_other. exact K. }
  destruct names as [ns|]; [|destruct size as [n|]]; [| |discriminate]; injection H as <-.
  - apply (P ns); reflexivity.
  - apply (P (map (default k) (seq 0 n))); [reflexivity|]. rewrite map_length, seq_length. split; [reflexivity|].
    intros i Hi. rewrite nth_error_map. rewrite (nth_error_nth' _ 0%nat) by (rewrite seq_length; exact Hi).
    rewrite seq_nth by exact Hi. reflexivity.
Qed.
Lemma create_refused : forall default k size names style d,
    snd (create_entry default k size names style d) <> Ok tt <-> names = None /\ size = None.
Proof.
  intros default k size names style d. unfold create_entry, cset. destruct names as [ns|]; [|destruct size as [n|]]; cbn; split; intros H.
  - exfalso. apply H. reflexivity.
  - destruct H. discriminate.
  - exfalso. apply H. reflexivity.
  - destruct H. discriminate.
  - auto.
  - discriminate.
Qed.
Lemma new_result : forall default n_x n_y n_u names t_0 t_f n,
    let r := new_sim_result default n_x n_y n_u names t_0 t_f n in
    r_t_0 r = t_0 /\ r_t_f r = t_f /\
    dim "x" r = Ok (Some n_x) /\ dim "y" r = Ok (Some n_y) /\ dim "u" r = Ok (Some n_u) /\
    contents "x" (r_data r) = Some [] /\ contents "y" (r_data r) = Some [] /\ contents "u" (r_data r) = Some [].
Proof.
  intros default n_x n_y n_u [[[nx|] [ny|]] [nu|]] t_0 t_f n r; subst r; repeat split.
Qed.

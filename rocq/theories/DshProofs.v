(** Proofs about data sets as objects. *)
From Coq Require Import String.
From Verif Require Import Base BaseProofs ExprModel DataModel DataSpec DataProofs DshModel DshSpec.
Local Open Scope list_scope.
Local Open Scope nat_scope.
Local Open Scope cmd_scope.

(** ** Lists *)

Lemma replace_length : forall {A} (l : list A) i x, length (replace l i x) = length l.
Proof. intros A. induction l as [|a l IH]; intros [|i] x; cbn; auto. Qed.
Lemma replace_at : forall {A} (l : list A) i x j, nth_error (replace l i x) j = if (j =? i) && (i <? length l) then Some x else nth_error l j.
Proof.
  intros A. induction l as [|a l IH]; intros [|i] x [|j]; cbn [replace nth_error]; try reflexivity.
  - rewrite andb_false_r. reflexivity.
  - rewrite IH. reflexivity.
Qed.
Lemma replace_same : forall {A} (l : list A) i x, nth_error l i = Some x -> replace l i x = l.
Proof. intros A. induction l as [|a l IH]; intros [|i] x H; cbn in *; try discriminate; [congruence|]. f_equal. apply IH. exact H. Qed.
Lemma replace_twice : forall {A} (l : list A) i x y, replace (replace l i x) i y = replace l i y.
Proof. intros A. induction l as [|a l IH]; intros [|i] x y; cbn; try reflexivity. f_equal. apply IH. Qed.
Lemma replace_here : forall {A} (l : list A) i x y, nth_error l i = Some y -> nth_error (replace l i x) i = Some x.
Proof.
  intros A l i x y H. rewrite replace_at, Nat.eqb_refl. assert (i < length l) by (apply nth_error_Some; congruence).
  apply Nat.ltb_lt in H0. rewrite H0. reflexivity.
Qed.
Lemma replace_else : forall {A} (l : list A) i x j, j <> i -> nth_error (replace l i x) j = nth_error l j.
Proof. intros A l i x j H. rewrite replace_at. apply Nat.eqb_neq in H. rewrite H. reflexivity. Qed.
Lemma replace_map : forall {A B} (f : A -> B) l i x, map f (replace l i x) = replace (map f l) i (f x).
Proof. intros A B f. induction l as [|a l IH]; intros [|i] x; cbn; try reflexivity. f_equal. apply IH. Qed.
Lemma replace_parts : forall {A} (l : list A) i x y, nth_error l i = Some y -> replace l i x = firstn i l ++ x :: skipn (S i) l.
Proof. intros A. induction l as [|a l IH]; intros [|i] x y H; cbn in *; try discriminate; [reflexivity|]. f_equal. exact (IH i x y H). Qed.
Lemma same_list : forall {A} (l m : list A), (forall i, nth_error l i = nth_error m i) -> l = m.
Proof.
  intros A. induction l as [|a l IH]; intros [|b m] H; [reflexivity|specialize (H 0); discriminate|specialize (H 0); discriminate|].
  pose proof (H 0) as H0. cbn in H0. injection H0 as ->. f_equal. apply IH. intros i. exact (H (S i)).
Qed.

(** ** What the data sets hold *)

Definition nobody : entry := mkEntry [] None [] null "".
Definition value (m : memory) (r : dict string nat) : dataset := map (fun ka => (fst ka, nth (snd ka) (m_entries m) nobody)) r.
Definition views (m : memory) : list dataset := map (value m) (m_sets m).
Record apart (m : memory) : Prop := mkApart
  { ap_keys : forall h r, nth_error (m_sets m) h = Some r -> NoDup (dkeys r);
    ap_less : forall h r k a, nth_error (m_sets m) h = Some r -> In (k, a) r -> a < length (m_entries m);
    ap_own : forall h r k a h' r' k', nth_error (m_sets m) h = Some r -> nth_error (m_sets m) h' = Some r' -> In (k, a) r -> In (k', a) r' -> h = h' /\ k = k' }.

Lemma view_at : forall m h d, nth_error (views m) h = Some d <-> exists r, nth_error (m_sets m) h = Some r /\ d = value m r.
Proof.
  intros m h d. unfold views. rewrite nth_error_map. destruct (nth_error (m_sets m) h) as [r|]; cbn.
  - split; [intros H; injection H as <-; exists r; tauto|]. intros [r' [E ->]]. injection E as <-. reflexivity.
  - split; [discriminate|]. intros [r [E _]]. discriminate.
Qed.
Lemma value_look : forall m r k, look k (value m r) = match dget String.eqb k r with Some a => Some (nth a (m_entries m) nobody) | None => None end.
Proof.
  intros m r k. unfold look, value. induction r as [|[k' a] r IH]; cbn; [reflexivity|]. destruct (String.eqb k k'); [reflexivity|exact IH].
Qed.
Lemma value_keys : forall m r, dkeys (value m r) = dkeys r.
Proof. intros m r. unfold value, dkeys. rewrite map_map. reflexivity. Qed.
Lemma find_look : forall m h d k, apart m -> nth_error (views m) h = Some d -> find h k m = look k d.
Proof.
  intros m h d k A H. apply view_at in H. destruct H as [r [Hr ->]]. unfold find, address. rewrite Hr, value_look.
  destruct (dget String.eqb k r) as [a|] eqn:E; [|reflexivity]. apply nth_error_nth'.
  apply (ap_less m A h r k a Hr). exact (dget_In _ String.eqb_eq _ _ _ E).
Qed.

(** A command on the objects does to data set [h] what [c'] does to a value, and nothing
    else. *)
Definition does (h : nat) {A : Type} (c : cmd memory A) (c' : cmd dataset A) : Prop :=
  forall m d, apart m -> nth_error (views m) h = Some d ->
    apart (fst (c m)) /\ views (fst (c m)) = replace (views m) h (fst (c' d)) /\ snd (c m) = snd (c' d).
Lemma does_nothing : forall h m d, nth_error (views m) h = Some d -> views m = replace (views m) h d.
Proof. intros h m d H. symmetry. apply replace_same. exact H. Qed.
Lemma does_bind : forall h {A B} (c : cmd memory A) (c' : cmd dataset A) (f : A -> cmd memory B) f',
    does h c c' -> (forall a, does h (f a) (f' a)) -> does h (cbind c f) (cbind c' f').
Proof.
  intros h A B c c' f f' H G m d Ha Hd. destruct (H m d Ha Hd) as [H1 [H2 H3]]. unfold cbind.
  destruct (c m) as [m1 x]. destruct (c' d) as [d1 x']. cbn [fst snd] in H1, H2, H3. subst x'. destruct x as [a|e]; [|cbn [fst snd]; tauto].
  assert (Hd1 : nth_error (views m1) h = Some d1) by (rewrite H2; exact (replace_here _ _ _ _ Hd)).
  destruct (G a m1 d1 H1 Hd1) as [G1 [G2 G3]]. split; [exact G1|]. split; [|exact G3]. rewrite G2, H2, replace_twice. reflexivity.
Qed.
Lemma does_guard : forall h (b : bool) e, does h (cguard (fun _ => b) e) (cguard (fun _ => b) e).
Proof. intros h b e m d Ha Hd. unfold cguard. destruct b; cbn [fst snd]; split; try exact Ha; split; try reflexivity; apply does_nothing; exact Hd. Qed.
Lemma does_run : forall h {O} (f : O -> cmd memory unit) f' (l : list O), (forall o, does h (f o) (f' o)) ->
    does h (fun m => run_all f l m) (fun d => run_all f' l d).
Proof.
  intros h O f f' l H. induction l as [|o l IH]; intros m d Ha Hd; cbn [run_all].
  - cbn [fst snd]. split; [exact Ha|]. split; [apply does_nothing; exact Hd|reflexivity].
  - destruct (H o m d Ha Hd) as [H1 [H2 H3]]. destruct (f o m) as [m1 x]. destruct (f' o d) as [d1 x']. cbn [fst snd] in H1, H2, H3. subst x'.
    destruct x as [a|e]; [|cbn [fst snd]; tauto].
    assert (Hd1 : nth_error (views m1) h = Some d1) by (rewrite H2; exact (replace_here _ _ _ _ Hd)).
    destruct (IH m1 d1 H1 Hd1) as [G1 [G2 G3]]. split; [exact G1|]. split; [|exact G3]. rewrite G2, H2, replace_twice. reflexivity.
Qed.

(** ** Assignments *)

Lemma value_replaced : forall m a e r k, NoDup (dkeys r) -> In (k, a) r -> a < length (m_entries m) -> (forall k', In (k', a) r -> k' = k) ->
    value (mkMemory (replace (m_entries m) a e) (m_sets m)) r = put k e (value m r).
Proof.
  intros m a e r k. unfold value. cbn [m_entries]. induction r as [|[k' b] r IH]; intros N Hin L U; [destruct Hin|].
  cbn [map fst snd]. unfold put. cbn [dset]. inversion N as [|? ? N1 N2]; subst. destruct Hin as [E|Hin].
  - injection E as -> ->. rewrite String.eqb_refl. f_equal.
    + f_equal. rewrite (nth_error_nth _ _ _ (replace_here _ a e _ (nth_error_nth' _ nobody L))). reflexivity.
    + apply map_ext_in. intros [k2 b2] H2. cbn [fst snd]. f_equal. assert (b2 <> a).
      { intros ->. pose proof (U k2 (or_intror H2)) as ->. apply N1. unfold dkeys. apply in_map_iff. exists (k, a). tauto. }
      destruct (Nat.lt_ge_cases b2 (length (m_entries m))) as [G|G].
      * rewrite (nth_error_nth _ _ nobody (eq_trans (replace_else _ a e _ H) (nth_error_nth' _ nobody G))). reflexivity.
      * rewrite !nth_overflow; [reflexivity|exact G|rewrite replace_length; exact G].
  - assert (k' <> k). { intros ->. apply N1. unfold dkeys. apply in_map_iff. exists (k, a). tauto. }
    destruct (String.eqb_spec k k') as [->|_]; [congruence|]. f_equal.
    + f_equal. assert (b <> a). { intros ->. apply H. apply U. left. reflexivity. }
      destruct (Nat.lt_ge_cases b (length (m_entries m))) as [G|G].
      * rewrite (nth_error_nth _ _ nobody (eq_trans (replace_else _ a e _ H0) (nth_error_nth' _ nobody G))). reflexivity.
      * rewrite !nth_overflow; [reflexivity|exact G|rewrite replace_length; exact G].
    + apply IH; [exact N2|exact Hin|exact L|]. intros k2 H2. apply U. right. exact H2.
Qed.
Lemma value_unchanged : forall m a e r, (forall k, ~ In (k, a) r) -> value (mkMemory (replace (m_entries m) a e) (m_sets m)) r = value m r.
Proof.
  intros m a e r H. unfold value. apply map_ext_in. intros [k b] Hb. cbn [fst snd m_entries]. f_equal.
  assert (N : b <> a) by (intros ->; exact (H k Hb)).
  destruct (Nat.lt_ge_cases b (length (m_entries m))) as [G|G].
  - rewrite (nth_error_nth _ _ nobody (eq_trans (replace_else _ a e _ N) (nth_error_nth' _ nobody G))). reflexivity.
  - rewrite !nth_overflow; [reflexivity|exact G|rewrite replace_length; exact G].
Qed.
Lemma does_assign : forall h k f, does h (assign h k f)
    (cset (fun d => match look k d with None => Raise KeyError | Some e => f e end) (put k)).
Proof.
  intros h k f m d Ha Hd. pose proof (find_look m h d k Ha Hd) as Hf. unfold assign, cset.
  pose proof Hd as Hv. apply view_at in Hv. destruct Hv as [r [Hr Ed]].
  unfold find, address in *. rewrite Hr in Hf |- *. destruct (dget String.eqb k r) as [a|] eqn:Ea.
  2:{ rewrite <- Hf. cbn [fst snd]. split; [exact Ha|]. split; [apply does_nothing; exact Hd|reflexivity]. }
  pose proof (dget_In _ String.eqb_eq _ _ _ Ea) as Hin. pose proof (ap_less m Ha h r k a Hr Hin) as L.
  rewrite <- Hf. destruct (nth_error (m_entries m) a) as [e|] eqn:Ee; [|apply nth_error_None in Ee; lia].
  destruct (f e) as [e'|x]; cbn [fst snd].
  2:{ split; [exact Ha|]. split; [apply does_nothing; exact Hd|reflexivity]. }
  split; [|split; [|reflexivity]].
  - destruct Ha as [K1 K2 K3]. constructor; cbn [m_sets m_entries]; [exact K1| |exact K3].
    intros h' r' k' a' H1 H2. rewrite replace_length. exact (K2 h' r' k' a' H1 H2).
  - apply same_list. intros j. destruct (Nat.eq_dec j h) as [->|N].
    + rewrite (replace_here _ _ _ _ Hd). apply view_at. exists r. split; [exact Hr|]. rewrite Ed. symmetry.
      apply value_replaced; [exact (ap_keys m Ha h r Hr)|exact Hin|exact L|]. intros k' H'. exact (proj2 (ap_own m Ha h r k' a h r k Hr Hr H' Hin)).
    + rewrite replace_else by exact N. unfold views. cbn [m_sets]. rewrite !nth_error_map. destruct (nth_error (m_sets m) j) as [r'|] eqn:Hj; [|reflexivity].
      cbn [option_map]. f_equal. apply value_unchanged. intros k' H'. apply N. exact (proj1 (ap_own m Ha j r' k' a h r k Hj Hr H' Hin)).
Qed.

Lemma cset_same : forall {S A} (r r' : S -> res A) p s, (forall s, r s = r' s) -> cset r p s = cset r' p s.
Proof. intros S A r r' p s H. unfold cset. rewrite H. reflexivity. Qed.
Lemma does_same : forall h {A} (c : cmd memory A) c' c'', (forall d, c' d = c'' d) -> does h c c' -> does h c c''.
Proof. intros h A c c' c'' E H m d Ha Hd. rewrite <- E. exact (H m d Ha Hd). Qed.

Lemma does_insert : forall h k time v, does h (insert h k time v) (insert_data k time v).
Proof.
  intros h k time v. unfold insert, insert_data. destruct (time_row time) as [ts|x].
  2:{ intros m d Ha Hd. cbn [fst snd]. split; [exact Ha|]. split; [apply does_nothing; exact Hd|reflexivity]. }
  assert (G : does h (cguard (fun _ => negb (length ts =? length (mcols v))) ValueError ;;;
         assign h k (fun e => match horzcat (e_values e) v with Ok v => Ok (set_e_values v e) | Raise x => Raise x end) ;;;
         assign h k (fun e => Ok (set_e_time (e_time e ++ ts) e)) ;;;
         (fun m => match find h k m with
                   | Some (mkEntry _ None _ _ _) => assign h "entry" (fun e => Ok (set_e_size (Some (mrows v)) e)) m
                   | _ => (m, Ok tt)
                   end))
        (cguard (fun _ => negb (length ts =? length (mcols v))) ValueError ;;;
         cset (fun d => match look k d with
                        | None => Raise KeyError
                        | Some e => match horzcat (e_values e) v with
                                    | Raise x => Raise x
                                    | Ok v => Ok (set_e_values v e)
                                    end
                        end) (put k) ;;;
         cset (fun d => match look k d with
                        | None => Raise KeyError
                        | Some e => Ok (set_e_time (e_time e ++ ts) e)
                        end) (put k) ;;;
         (fun d => match look k d with
                   | Some (mkEntry _ None _ _ _) =>
                       cset (fun d => match look "entry" d with
                                      | None => Raise KeyError
                                      | Some e => Ok (set_e_size (Some (mrows v)) e)
                                      end) (put "entry") d
                   | _ => (d, Ok tt)
                   end))).
  { apply does_bind; [apply does_guard|]. intros _. apply does_bind.
    - refine (does_same _ _ _ _ _ (does_assign h k _)). intros d. apply cset_same. intros d'. destruct (look k d') as [e|]; [|reflexivity].
      destruct (horzcat (e_values e) v); reflexivity.
    - intros _. apply does_bind; [apply does_assign|]. intros _. intros m d Ha Hd. rewrite (find_look m h d k Ha Hd).
      destruct (look k d) as [[n [s|] t w y]|]; cbn [fst snd].
      + split; [exact Ha|]. split; [apply does_nothing; exact Hd|reflexivity].
      + exact (does_assign h "entry" _ m d Ha Hd).
      + split; [exact Ha|]. split; [apply does_nothing; exact Hd|reflexivity]. }
  exact G.
Qed.
Lemma does_sort_one : forall h k, does h (sort_one h k) (sort_entry k).
Proof. intros h k. exact (does_assign h k _). Qed.
Lemma keys_of : forall h m d, nth_error (views m) h = Some d -> keys h m = dkeys d.
Proof. intros h m d H. apply view_at in H. destruct H as [r [Hr ->]]. unfold keys. rewrite Hr, value_keys. reflexivity. Qed.
Lemma does_sort : forall h es, does h (sort_set h es) (sort es).
Proof.
  intros h es m d Ha Hd. unfold sort_set, sort. rewrite (keys_of h m d Hd).
  exact (does_run h (sort_one h) sort_entry _ (does_sort_one h) m d Ha Hd).
Qed.
Lemma does_create : forall default h k size names style, does h (create default h k size names style) (create_entry default k (Some size) names style).
Proof.
  intros default h k size names style m d Ha Hd. pose proof Hd as Hv. apply view_at in Hv. destruct Hv as [r [Hr Ed]].
  unfold create, create_entry, cset. rewrite Hr.
  set (ns := match names with Some ns => ns | None => map (default k) (seq 0 size) end).
  assert (En : match names with Some ns => Ok ns | None => Ok (map (default k) (seq 0 size)) end = Ok ns) by (destruct names; reflexivity).
  rewrite En. set (e := mkEntry ns (Some size) [] null style). cbn [fst snd].
  set (L := length (m_entries m)). pose proof Ha as [K1 K2 K3].
  assert (In' : forall k' a', In (k', a') (dset String.eqb k L r) -> (k' = k /\ a' = L) \/ In (k', a') r /\ k' <> k).
  { pose proof (K1 h r Hr) as N. clear -N. induction r as [|[k1 a1] r IH]; intros k' a' H; cbn in H.
    - destruct H as [H|[]]. injection H as <- <-. left. tauto.
    - inversion N as [|? ? N1 N2]; subst. destruct (String.eqb_spec k k1) as [->|D].
      + destruct H as [H|H]; [injection H as <- <-; left; tauto|]. right. split; [right; exact H|]. intros ->. apply N1. unfold dkeys. apply in_map_iff. exists (k1, a'). tauto.
      + destruct H as [H|H]; [injection H as <- <-; right; split; [left; reflexivity|congruence]|].
        destruct (IH N2 k' a' H) as [G|[G1 G2]]; [left; exact G|right; split; [right; exact G1|exact G2]]. }
  assert (Old : forall r', (forall k' a', In (k', a') r' -> a' < L) -> forall s, value (mkMemory (m_entries m ++ [e]) s) r' = value m r').
  { intros r' H s. unfold value. apply map_ext_in. intros [k' a'] H'. cbn [fst snd m_entries]. f_equal. apply app_nth1. exact (H k' a' H'). }
  assert (New : forall s, value (mkMemory (m_entries m ++ [e]) s) (dset String.eqb k L r) = put k e (value m r)).
  { intros s. pose proof (K2 h r) as K2h. clear -K2h Hr Old. assert (G : forall k' a', In (k', a') r -> a' < L) by (intros k' a' H; exact (K2h k' a' Hr H)).
    clear K2h Hr Old. unfold value, put. cbn [m_entries]. induction r as [|[k1 a1] r IH]; cbn [dset map fst snd].
    - unfold L. rewrite nth_middle. reflexivity.
    - destruct (String.eqb k k1); cbn [map fst snd].
      + unfold L at 1. rewrite nth_middle. f_equal. apply map_ext_in. intros [k' a'] H'. cbn [fst snd]. f_equal. apply app_nth1. apply (G k'). right. exact H'.
      + f_equal; [f_equal; apply app_nth1; apply (G k1); left; reflexivity|]. apply IH. intros k' a' H'. apply (G k'). right. exact H'. }
  split; [|split; [|reflexivity]].
  - assert (P : forall j r', nth_error (replace (m_sets m) h (dset String.eqb k L r)) j = Some r' ->
        (j = h /\ r' = dset String.eqb k L r) \/ (j <> h /\ nth_error (m_sets m) j = Some r')).
    { intros j r' H. destruct (Nat.eq_dec j h) as [->|N]; [left|right; split; [exact N|rewrite replace_else in H by exact N; exact H]].
      rewrite (replace_here _ _ _ _ Hr) in H. injection H as <-. tauto. }
    constructor; cbn [m_sets m_entries].
    + intros j r' H. destruct (P j r' H) as [[-> ->]|[_ H']]; [|exact (K1 j r' H')].
      destruct (dget String.eqb k r) eqn:E.
      * rewrite (dkeys_dset_In _ String.eqb_eq); [exact (K1 h r Hr)|]. apply (dget_In _ String.eqb_eq) in E. unfold dkeys. apply in_map_iff. exists (k, n). tauto.
      * apply (dget_None _ String.eqb_eq) in E. rewrite (dkeys_dset_notIn _ String.eqb_eq) by exact E.
        apply NoDup_app_intro; [exact (K1 h r Hr)|repeat constructor; tauto|]. intros x Hx [->|[]]. exact (E Hx).
    + intros j r' k' a' H Hin. rewrite app_length. cbn [length]. destruct (P j r' H) as [[-> ->]|[_ H']].
      * destruct (In' k' a' Hin) as [[_ ->]|[G _]]; [unfold L; lia|]. pose proof (K2 h r k' a' Hr G). lia.
      * pose proof (K2 j r' k' a' H' Hin). lia.
    + intros j r1 k1 a1 j' r2 k2 H1 H2 I1 I2. destruct (P j r1 H1) as [[-> ->]|[N1 H1']], (P j' r2 H2) as [[-> ->]|[N2 H2']].
      * destruct (In' k1 a1 I1) as [[-> ->]|[G1 G1']], (In' k2 _ I2) as [[-> E2]|[G2 G2']].
        -- tauto.
        -- pose proof (K2 h r k2 L Hr G2). unfold L in *. lia.
        -- subst a1. pose proof (K2 h r k1 L Hr G1). unfold L in *. lia.
        -- exact (K3 h r k1 a1 h r k2 Hr Hr G1 G2).
      * destruct (In' k1 a1 I1) as [[-> ->]|[G1 G1']]; [pose proof (K2 j' r2 k2 L H2' I2); unfold L in *; lia|exact (K3 h r k1 a1 j' r2 k2 Hr H2' G1 I2)].
      * destruct (In' k2 a1 I2) as [[-> ->]|[G2 G2']]; [pose proof (K2 j r1 k1 L H1' I1); unfold L in *; lia|exact (K3 j r1 k1 a1 h r k2 H1' Hr I1 G2)].
      * exact (K3 j r1 k1 a1 j' r2 k2 H1' H2' I1 I2).
  - apply same_list. intros j. destruct (Nat.eq_dec j h) as [->|N].
    + rewrite (replace_here _ _ _ _ Hd). apply view_at. eexists. split; [exact (replace_here _ _ _ _ Hr)|]. rewrite Ed. symmetry. apply New.
    + rewrite replace_else by exact N. unfold views. rewrite !nth_error_map. cbn [m_sets]. rewrite replace_else by exact N.
      destruct (nth_error (m_sets m) j) as [r'|] eqn:Hj; [|reflexivity]. cbn [option_map]. f_equal. apply Old. intros k' a' H'. exact (K2 j r' k' a' Hj H').
Qed.

(** ** New data sets *)

Lemma views_more : forall m es s d, apart m ->
    views (mkMemory (m_entries m ++ es) (m_sets m ++ [s])) = views m ++ [d] <-> value (mkMemory (m_entries m ++ es) (m_sets m ++ [s])) s = d.
Proof.
  intros m es s d Ha. unfold views. cbn [m_sets]. rewrite map_app. cbn [map].
  assert (E : map (value (mkMemory (m_entries m ++ es) (m_sets m ++ [s]))) (m_sets m) = map (value m) (m_sets m)).
  { apply map_ext_in. intros r Hr. apply In_nth_error in Hr. destruct Hr as [j Hj]. unfold value. apply map_ext_in. intros [k a] Hk. cbn [fst snd m_entries]. f_equal.
    apply app_nth1. exact (ap_less m Ha j r k a Hj Hk). }
  rewrite E. split; [intros H; apply app_inv_head in H; injection H as H; exact H|intros ->; reflexivity].
Qed.
Lemma copied : forall m r first es s, (forall k a, In (k, a) r -> a < length (m_entries m)) -> copy_entries m r first = (es, s) ->
    es = map (fun ka => nth (snd ka) (m_entries m) nobody) r /\ s = combine (dkeys r) (seq first (length r)).
Proof.
  intros m. induction r as [|[k a] r IH]; intros first es s H E; cbn [copy_entries] in E.
  - injection E as <- <-. tauto.
  - destruct (nth_error (m_entries m) a) as [e|] eqn:Ee; [|apply nth_error_None in Ee; specialize (H k a (or_introl eq_refl)); lia].
    destruct (copy_entries m r (S first)) as [es' s'] eqn:E'. injection E as <- <-.
    destruct (IH (S first) es' s' (fun k' a' H' => H k' a' (or_intror H')) E') as [-> ->]. split; [|reflexivity].
    cbn [map snd]. rewrite (nth_error_nth _ _ _ Ee). reflexivity.
Qed.
Lemma apart_more : forall m es s, apart m -> NoDup (dkeys s) -> NoDup (dvals s) ->
    (forall k a, In (k, a) s -> length (m_entries m) <= a < length (m_entries m) + length es) ->
    apart (mkMemory (m_entries m ++ es) (m_sets m ++ [s])).
Proof.
  intros m es s [K1 K2 K3] N NV L.
  assert (P : forall j r, nth_error (m_sets m ++ [s]) j = Some r -> nth_error (m_sets m) j = Some r \/ (j = length (m_sets m) /\ r = s)).
  { intros j r H. destruct (Nat.lt_ge_cases j (length (m_sets m))) as [G|G]; [left; rewrite nth_error_app1 in H by exact G; exact H|right].
    rewrite nth_error_app2 in H by exact G. destruct (j - length (m_sets m)) as [|i] eqn:E; [|destruct i; discriminate]. injection H as <-. split; [lia|reflexivity]. }
  constructor; cbn [m_sets m_entries].
  - intros j r H. destruct (P j r H) as [H'|[_ ->]]; [exact (K1 j r H')|exact N].
  - intros j r k a H Hin. rewrite app_length. destruct (P j r H) as [H'|[_ ->]]; [pose proof (K2 j r k a H' Hin); lia|pose proof (L k a Hin); lia].
  - intros j r k a j' r' k' H H' I I'. destruct (P j r H) as [G|[-> ->]], (P j' r' H') as [G'|[-> ->]].
    + exact (K3 j r k a j' r' k' G G' I I').
    + pose proof (K2 j r k a G I). pose proof (L k' a I'). lia.
    + pose proof (K2 j' r' k' a G' I'). pose proof (L k a I). lia.
    + split; [reflexivity|]. clear -NV I I'. induction s as [|[k1 a1] s IH]; [destruct I|]. cbn in NV. inversion NV as [|? ? N1 N2]; subst.
      assert (M : forall q, In (q, a) s -> In a (map snd s)) by (intros q Hq; apply in_map_iff; exists (q, a); tauto).
      destruct I as [E|I], I' as [E'|I'].
      * congruence.
      * injection E as -> ->. destruct (N1 (M k' I')).
      * injection E' as -> ->. destruct (N1 (M k I)).
      * exact (IH N2 I I').
Qed.
Lemma new_ok : forall m, apart m -> apart (fst (new_set m)) /\ views (fst (new_set m)) = views m ++ [[]].
Proof.
  intros m Ha. unfold new_set. cbn [fst]. rewrite <- (app_nil_r (m_entries m)). split.
  - apply apart_more; [exact Ha|constructor|constructor|intros k a []].
  - apply views_more; [exact Ha|reflexivity].
Qed.
Lemma combine_keys : forall (l : list string) n, NoDup (map snd (combine l (seq n (length l)))) /\ map fst (combine l (seq n (length l))) = l /\
    forall k a, In (k, a) (combine l (seq n (length l))) -> n <= a < n + length l.
Proof.
  induction l as [|k l IH]; intros n; cbn [length seq combine map]; [split; [constructor|]; split; [reflexivity|intros k a []]|].
  destruct (IH (S n)) as [I1 [I2 I3]]. split; [|split; [f_equal; exact I2|]].
  - constructor; [|exact I1]. intros C. apply in_map_iff in C. destruct C as [[k' a] [E H]]. cbn in E. subst a. pose proof (I3 k' n H). lia.
  - intros k' a [E|H]; [injection E as <- <-; lia|]. pose proof (I3 k' a H). lia.
Qed.
Lemma copy_ok : forall m h d, apart m -> nth_error (views m) h = Some d ->
    apart (fst (get_copy h m)) /\ views (fst (get_copy h m)) = views m ++ [d] /\ snd (get_copy h m) = Ok (length (m_sets m)).
Proof.
  intros m h d Ha Hd. apply view_at in Hd. destruct Hd as [r [Hr Ed]]. unfold get_copy. rewrite Hr.
  destruct (copy_entries m r (length (m_entries m))) as [es s] eqn:E. cbn [fst snd].
  destruct (copied m r _ es s (fun k a => ap_less m Ha h r k a Hr) E) as [Es Eq].
  assert (Lr : length r = length (dkeys r)) by (unfold dkeys; rewrite map_length; reflexivity). rewrite Lr in Eq.
  destruct (combine_keys (dkeys r) (length (m_entries m))) as [C1 [C2 C3]]. rewrite <- Eq in C1, C2, C3.
  assert (Les : length es = length (dkeys r)) by (rewrite Es, map_length; exact Lr).
  split; [|split; [|reflexivity]].
  - apply apart_more; [exact Ha|unfold dkeys at 1; rewrite C2; exact (ap_keys m Ha h r Hr)|exact C1|rewrite Les; exact C3].
  - apply views_more; [exact Ha|]. rewrite Ed. unfold value. cbn [m_entries]. rewrite Eq.
    assert (G : forall pre (l : dict string nat) rest, map (fun ka => (fst ka, nth (snd ka) (pre ++ map (fun ka => nth (snd ka) (m_entries m) nobody) l ++ rest) nobody))
        (combine (dkeys l) (seq (length pre) (length (dkeys l)))) = map (fun ka => (fst ka, nth (snd ka) (m_entries m) nobody)) l).
    { intros pre l. revert pre. induction l as [|[k a] l IH]; intros pre rest; cbn [dkeys map length seq combine fst snd]; [reflexivity|].
      cbn [app]. rewrite nth_middle. f_equal. specialize (IH (pre ++ [nth a (m_entries m) nobody]) rest). rewrite app_length in IH. cbn [length] in IH.
      rewrite Nat.add_1_r in IH. rewrite <- app_assoc in IH. cbn [app] in IH. exact IH. }
    specialize (G (m_entries m) r []). rewrite app_nil_r in G. rewrite Es. exact G.
Qed.

(** ** One data set extended by another, or by itself *)

Lemma insert_keeps : forall k t v d, sized d -> sized (fst (insert_data k t v d)) /\ forall k', k' <> k -> look k' (fst (insert_data k t v d)) = look k' d.
Proof.
  intros k t v d S. pose proof (insert_cases k t v d) as C. destruct (time_row t) as [ts|x]; [|rewrite C; cbn [fst]; tauto].
  destruct (negb _); [rewrite C; cbn [fst]; tauto|]. destruct (look k d) as [e|] eqn:El; [|rewrite C; cbn [fst]; tauto].
  destruct (horzcat (e_values e) v) as [w|x]; [|rewrite C; cbn [fst]; tauto]. cbv zeta in C.
  destruct (e_size e) as [s|] eqn:Es; [|destruct (S k e El Es)]. rewrite C. cbn [fst]. split.
  - refine (sized_put k (set_e_values w e) _ _ _ (look_put_same _ _ _) _); [|destruct e; reflexivity].
    apply (sized_put k e); [exact S|exact El|destruct e; reflexivity].
  - intros k' N. rewrite !look_put_other by exact N. reflexivity.
Qed.
Lemma view_else : forall m h d x, nth_error (views m) h = Some d -> forall j, j <> h -> nth_error (replace (views m) h x) j = nth_error (views m) j.
Proof. intros m h d x _ j N. apply replace_else. exact N. Qed.
Lemma extend_ok : forall h other o ks m d w, NoDup ks -> apart m -> nth_error (views m) h = Some d -> nth_error (views m) other = Some w -> sized d ->
    (forall k, In k ks -> look k w = look k o) ->
    let c := run_all (extend_one h other) ks m in let c' := run_all (extend_entry o) ks d in
    apart (fst c) /\ views (fst c) = replace (views m) h (fst c') /\ snd c = snd c' /\ sized (fst c').
Proof.
  intros h other o. induction ks as [|k ks IH]; intros m d w N Ha Hd Hw S E; cbv zeta; cbn [run_all].
  - cbn [fst snd]. split; [exact Ha|]. split; [apply does_nothing; exact Hd|]. split; [reflexivity|exact S].
  - inversion N as [|? ? N1 N2]; subst. pose proof (E k (or_introl eq_refl)) as Ek.
    assert (Same : forall r : res unit, apart (fst (m, r)) /\ views (fst (m, r)) = replace (views m) h (fst (d, r)) /\ snd (m, r) = snd (d, r) /\ sized (fst (d, r))).
    { intros r. cbn [fst snd]. split; [exact Ha|]. split; [apply does_nothing; exact Hd|]. split; [reflexivity|exact S]. }
    assert (U : extend_one h other k m = match find h k m, find other k m with
        | Some e, Some e' => if size_eqb (e_size e) (e_size e') then insert h k (TimeRow (e_time e')) (e_values e') m else (m, Raise ValueError)
        | _, _ => (m, Raise KeyError) end) by reflexivity.
    assert (U' : extend_entry o k d = match look k d, look k o with
        | Some e, Some e' => if size_eqb (e_size e) (e_size e') then insert_data k (TimeRow (e_time e')) (e_values e') d else (d, Raise ValueError)
        | _, _ => (d, Raise KeyError) end) by reflexivity.
    rewrite U, U'. clear U U'. rewrite (find_look m h d k Ha Hd), (find_look m other w k Ha Hw), Ek.
    destruct (look k d) as [e|] eqn:El; [|exact (Same _)]. destruct (look k o) as [e'|] eqn:Eo; [|exact (Same _)].
    destruct (size_eqb (e_size e) (e_size e')) eqn:Es; [|exact (Same _)].
    destruct (does_insert h k (TimeRow (e_time e')) (e_values e') m d Ha Hd) as [D1 [D2 D3]].
    destruct (insert_keeps k (TimeRow (e_time e')) (e_values e') d S) as [S1 L1].
    destruct (insert h k (TimeRow (e_time e')) (e_values e') m) as [m1 x].
    destruct (insert_data k (TimeRow (e_time e')) (e_values e') d) as [d1 x']. cbn [fst snd] in D1, D2, D3, S1, L1. subst x'.
    destruct x as [[]|x]; [|cbn [fst snd]; tauto].
    assert (Hd1 : nth_error (views m1) h = Some d1) by (rewrite D2; exact (replace_here _ _ _ _ Hd)).
    destruct (Nat.eq_dec other h) as [->|O].
    + rewrite Hd in Hw. injection Hw as <-.
      destruct (IH m1 d1 d1 N2 D1 Hd1 Hd1 S1) as [G1 [G2 [G3 G4]]].
      { intros k' Hk. rewrite L1 by (intros ->; exact (N1 Hk)). apply E. right. exact Hk. }
      split; [exact G1|]. split; [rewrite G2, D2, replace_twice; reflexivity|]. split; [exact G3|exact G4].
    + assert (Hw1 : nth_error (views m1) other = Some w) by (rewrite D2, replace_else by exact O; exact Hw).
      destruct (IH m1 d1 w N2 D1 Hd1 Hw1 S1) as [G1 [G2 [G3 G4]]].
      { intros k' Hk. apply E. right. exact Hk. }
      split; [exact G1|]. split; [rewrite G2, D2, replace_twice; reflexivity|]. split; [exact G3|exact G4].
Qed.
Lemma view_keys : forall m h d, apart m -> nth_error (views m) h = Some d -> NoDup (dkeys d).
Proof. intros m h d Ha H. apply view_at in H. destruct H as [r [Hr ->]]. rewrite value_keys. exact (ap_keys m Ha h r Hr). Qed.
Lemma extended : forall h other m d o, apart m -> nth_error (views m) h = Some d -> nth_error (views m) other = Some o -> sized d ->
    apart (fst (extend_set h other m)) /\ views (fst (extend_set h other m)) = replace (views m) h (fst (extend o d)) /\ snd (extend_set h other m) = snd (extend o d).
Proof.
  intros h other m d o Ha Hd Ho S. unfold extend_set, extend. rewrite (keys_of other m o Ho).
  destruct (extend_ok h other o (dkeys o) m d o (view_keys m other o Ha Ho) Ha Hd Ho S (fun k _ => eq_refl)) as [G1 [G2 [G3 _]]].
  unfold cbind. destruct (run_all (extend_one h other) (dkeys o) m) as [m1 x]. destruct (run_all (extend_entry o) (dkeys o) d) as [d1 x'].
  cbn [fst snd] in G1, G2, G3. subst x'. destruct x as [[]|x]; [|cbn [fst snd]; tauto].
  assert (Hd1 : nth_error (views m1) h = Some d1) by (rewrite G2; exact (replace_here _ _ _ _ Hd)).
  destruct (does_sort h None m1 d1 G1 Hd1) as [D1 [D2 D3]]. split; [exact D1|]. split; [|exact D3]. rewrite D2, G2, replace_twice. reflexivity.
Qed.

(** ** Sizes *)

Lemma sized_run : forall {O} (f : O -> cmd dataset unit) l d, (forall o d, sized d -> sized (fst (f o d))) -> sized d -> sized (fst (run_all f l d)).
Proof.
  intros O f. induction l as [|o l IH]; intros d H S; cbn [run_all]; [exact S|]. specialize (H o d S) as H1.
  destruct (f o d) as [d1 x]. cbn [fst] in H1. destruct x; [exact (IH d1 H H1)|exact H1].
Qed.
Lemma sized_sort : forall es d, sized d -> sized (fst (sort es d)).
Proof.
  intros es d S. unfold sort. apply sized_run; [|exact S]. clear. intros k d S. unfold sort_entry, cset.
  destruct (look k d) as [e|] eqn:El; [|exact S]. destruct (sort_points _) as [|p ps]; [exact S|]. cbn [fst].
  apply (sized_put k e); [exact S|exact El|destruct e; reflexivity].
Qed.
Lemma sized_extend : forall o d, sized d -> sized (fst (extend o d)).
Proof.
  intros o d S. unfold extend, cbind. pose proof (sized_run (extend_entry o) (dkeys o) d) as G.
  destruct (run_all (extend_entry o) (dkeys o) d) as [d1 x]. cbn [fst] in G.
  assert (S1 : sized d1).
  { apply G; [|exact S]. clear. intros k d S. unfold extend_entry. destruct (look k d); [|exact S]. destruct (look k o); [|exact S].
    destruct (size_eqb _ _); [|exact S]. apply insert_keeps. exact S. }
  destruct x; [exact (sized_sort None d1 S1)|exact S1].
Qed.
Lemma sized_create : forall default k n names style d, sized d -> sized (fst (create_entry default k (Some n) names style d)).
Proof.
  intros default k n names style d S. unfold create_entry, cset. destruct names as [ns|]; cbn [fst];
    (intros k' e Hl; rewrite look_put in Hl; destruct (String.eqb k' k); [injection Hl as <-; discriminate|exact (S k' e Hl)]).
Qed.

(** ** Every call *)

Definition tidy (m : memory) : Prop := apart m /\ Forall sized (views m).
Lemma sized_at : forall w h d, Forall sized w -> nth_error w h = Some d -> sized d.
Proof. intros w h d H E. rewrite Forall_forall in H. apply H. exact (nth_error_In _ _ E). Qed.
Lemma sized_replace : forall w h d, Forall sized w -> sized d -> Forall sized (replace w h d).
Proof. induction w as [|x w IH]; intros [|h] d H D; cbn [replace]; auto; inversion H; subst; constructor; auto. Qed.
Lemma there_iff : forall m h, there m h = match nth_error (views m) h with Some _ => true | None => false end.
Proof.
  intros m h. unfold there. assert (L : length (views m) = length (m_sets m)) by (unfold views; apply map_length). rewrite <- L.
  destruct (Nat.ltb_spec h (length (views m))) as [G|G].
  - destruct (nth_error (views m) h) eqn:E; [reflexivity|]. apply nth_error_None in E. lia.
  - apply nth_error_None in G. rewrite G. reflexivity.
Qed.
Lemma at_replace : forall w h d c, nth_error w h = Some d -> at_place w h c = (replace w h (fst (c d)), snd (c d)).
Proof. intros w h d c H. unfold at_place. rewrite H, (replace_parts w h _ d H). reflexivity. Qed.
Lemma step_alone : forall default op m, tidy m ->
    tidy (fst (set_step default op m)) /\ views (fst (set_step default op m)) = fst (alone default op (views m)) /\
    snd (set_step default op m) = snd (alone default op (views m)).
Proof.
  intros default op m [Ha S].
  assert (One : forall h d (c : cmd memory unit) c', nth_error (views m) h = Some d -> sized (fst (c' d)) ->
      apart (fst (c m)) /\ views (fst (c m)) = replace (views m) h (fst (c' d)) /\ snd (c m) = snd (c' d) ->
      tidy (fst (c m)) /\ views (fst (c m)) = fst (at_place (views m) h c') /\ snd (c m) = snd (at_place (views m) h c')).
  { intros h d c c' Hd D [G1 [G2 G3]]. rewrite (at_replace _ _ d c' Hd). cbn [fst snd]. split; [split; [exact G1|rewrite G2; exact (sized_replace _ h _ S D)]|tauto]. }
  destruct op as [|h|h k n names style|h k t v|h es|h o]; cbn [set_step alone].
  - destruct (new_ok m Ha) as [G1 G2]. unfold unit_of, cbind, new_set, cret in *. cbn [fst snd] in *. split; [split; [exact G1|]|split; [exact G2|reflexivity]].
    rewrite G2. apply Forall_app. split; [exact S|]. constructor; [|constructor]. intros k e E. discriminate.
  - rewrite there_iff. destruct (nth_error (views m) h) as [d|] eqn:Hd; [|cbn [fst snd]; split; [split; assumption|tauto]].
    destruct (copy_ok m h d Ha Hd) as [G1 [G2 G3]]. unfold unit_of, cbind, cret. destruct (get_copy h m) as [m1 x]. cbn [fst snd] in *. subst x. cbn [fst snd].
    split; [split; [exact G1|]|split; [exact G2|reflexivity]]. rewrite G2. apply Forall_app. split; [exact S|]. constructor; [exact (sized_at _ h _ S Hd)|constructor].
  - rewrite there_iff. destruct (nth_error (views m) h) as [d|] eqn:Hd; [|unfold at_place; rewrite Hd; cbn [fst snd]; split; [split; assumption|tauto]].
    apply (One h d _ _ Hd); [apply sized_create; exact (sized_at _ h _ S Hd)|exact (does_create default h k n names style m d Ha Hd)].
  - rewrite there_iff. destruct (nth_error (views m) h) as [d|] eqn:Hd; [|unfold at_place; rewrite Hd; cbn [fst snd]; split; [split; assumption|tauto]].
    apply (One h d _ _ Hd); [apply insert_keeps; exact (sized_at _ h _ S Hd)|exact (does_insert h k t v m d Ha Hd)].
  - rewrite there_iff. destruct (nth_error (views m) h) as [d|] eqn:Hd; [|unfold at_place; rewrite Hd; cbn [fst snd]; split; [split; assumption|tauto]].
    apply (One h d _ _ Hd); [apply sized_sort; exact (sized_at _ h _ S Hd)|exact (does_sort h es m d Ha Hd)].
  - rewrite !there_iff. destruct (nth_error (views m) h) as [d|] eqn:Hd; cbn [andb].
    2:{ destruct (nth_error (views m) o); [unfold at_place; rewrite Hd|]; cbn [fst snd]; (split; [split; assumption|tauto]). }
    destruct (nth_error (views m) o) as [d'|] eqn:Ho; [|cbn [fst snd]; split; [split; assumption|tauto]].
    pose proof (sized_at _ h _ S Hd) as Sd.
    apply (One h d _ _ Hd); [apply sized_extend; exact Sd|exact (extended h o m d d' Ha Hd Ho Sd)].
Qed.
Lemma tidy_empty : tidy empty.
Proof. split; [constructor|constructor]; cbn; intros [|h]; intros; discriminate. Qed.
Lemma calls_alone : forall default ops m, tidy m ->
    tidy (run_caught (set_step default) ops m) /\
    views (run_caught (set_step default) ops m) = run_caught (alone default) ops (views m) /\
    outcomes (set_step default) ops m = outcomes (alone default) ops (views m).
Proof.
  intros default. induction ops as [|o ops IH]; intros m T; [cbn; tauto|]. unfold run_caught in *. cbn [fold_left outcomes].
  destruct (step_alone default o m T) as [T1 [V1 E1]]. destruct (IH _ T1) as [T2 [V2 E2]]. rewrite V1 in V2, E2. rewrite E1, E2. tauto.
Qed.

Lemma holds_view : forall m h d, apart m -> (holds m h d <-> nth_error (views m) h = Some d).
Proof.
  intros m h d Ha. rewrite view_at. unfold holds. split; intros [r [Hr F]]; exists r; (split; [exact Hr|]).
  - clear Hr. unfold value. induction F as [|[k a] [k' e] r d [E1 E2] F IH]; [reflexivity|]. cbn [map fst snd] in *. subst k'. f_equal; [|exact IH].
    rewrite (nth_error_nth _ _ _ E2). reflexivity.
  - subst d. pose proof (fun k a => ap_less m Ha h r k a Hr) as L. clear Hr. unfold value. induction r as [|[k a] r IH]; cbn [map]; constructor.
    + cbn [fst snd]. split; [reflexivity|]. apply nth_error_nth'. apply (L k). left. reflexivity.
    + apply IH. intros k' a' H. apply (L k'). right. exact H.
Qed.
Lemma c96_alone : forall default ops h d,
    (holds (run_caught (set_step default) ops empty) h d <-> nth_error (run_caught (alone default) ops []) h = Some d) /\
    length (m_sets (run_caught (set_step default) ops empty)) = length (run_caught (alone default) ops []) /\
    outcomes (set_step default) ops empty = outcomes (alone default) ops [].
Proof.
  intros default ops h d. destruct (calls_alone default ops empty tidy_empty) as [[T _] [V E]]. change (views empty) with (@nil dataset) in *.
  split; [rewrite (holds_view _ _ _ T), V; tauto|]. split; [|exact E]. rewrite <- V. unfold views. rewrite map_length. reflexivity.
Qed.

(** ** Copies *)

Lemma alone_length : forall default op w, length w <= length (fst (alone default op w)).
Proof.
  intros default op w. assert (P : forall h c, length w <= length (fst (at_place w h c))).
  { intros h c. unfold at_place. destruct (nth_error w h) as [d|] eqn:E; [|reflexivity]. cbn [fst]. rewrite <- (replace_parts w h _ d E), replace_length. lia. }
  destruct op as [|h|h k n names style|h k t v|h es|h o]; cbn [alone fst]; auto.
  - rewrite app_length. lia.
  - destruct (nth_error w h); cbn [fst]; [rewrite app_length|]; lia.
  - destruct (nth_error w o); [apply P|reflexivity].
Qed.
Lemma alone_keeps : forall default op w h d, changes op <> Some h -> nth_error w h = Some d -> nth_error (fst (alone default op w)) h = Some d.
Proof.
  intros default op w h d C Hd. assert (L : h < length w) by (apply nth_error_Some; congruence).
  assert (P : forall h' c, Some h' <> Some h -> nth_error (fst (at_place w h' c)) h = Some d).
  { intros h' c N. unfold at_place. destruct (nth_error w h') as [d'|] eqn:E; [|exact Hd]. cbn [fst]. rewrite <- (replace_parts w h' _ d' E), replace_else by congruence. exact Hd. }
  destruct op as [|h'|h' k n names style|h' k t v|h' es|h' o]; cbn [alone fst changes] in *; auto.
  - rewrite nth_error_app1 by exact L. exact Hd.
  - destruct (nth_error w h'); cbn [fst]; [rewrite nth_error_app1 by exact L|]; exact Hd.
  - destruct (nth_error w o); [apply P; exact C|exact Hd].
Qed.
Lemma run_keeps : forall default ops w h d, Forall (fun op => changes op <> Some h) ops -> nth_error w h = Some d ->
    nth_error (run_caught (alone default) ops w) h = Some d.
Proof.
  intros default. induction ops as [|o ops IH]; intros w h d F Hd; [exact Hd|]. inversion F; subst. unfold run_caught in *. cbn [fold_left].
  apply IH; [assumption|]. apply alone_keeps; assumption.
Qed.
Lemma run_app : forall {S O A} (step : O -> cmd S A) l l' s, run_caught step (l ++ l') s = run_caught step l' (run_caught step l s).
Proof. intros. unfold run_caught. apply fold_left_app. Qed.
(** What a copy holds is what the data set held when it was copied, until a call is made for the
    copy; and the calls made for the copy do not show at the original. *)
Lemma c96_copy : forall default before after h d, let m := run_caught (set_step default) before empty in let c := length (m_sets m) in
    holds m h d -> let m' := run_caught (set_step default) (before ++ CopySet h :: after) empty in
    (Forall (fun op => changes op <> Some c) after -> holds m' c d) /\
    (Forall (fun op => changes op <> Some h) after -> holds m' h d).
Proof.
  intros default before after h d m c H m'. destruct (c96_alone default before h d) as [G [L _]]. fold m in G, L. apply G in H.
  assert (E : run_caught (alone default) (before ++ CopySet h :: after) [] = run_caught (alone default) after (run_caught (alone default) before [] ++ [d])).
  { rewrite run_app. unfold run_caught at 1. cbn [fold_left alone]. rewrite H. reflexivity. }
  split; intros F; apply (c96_alone default (before ++ CopySet h :: after)); rewrite E; apply run_keeps; try exact F.
  - unfold c. rewrite L, nth_error_app2 by lia. rewrite Nat.sub_diag. reflexivity.
  - rewrite nth_error_app1; [exact H|]. apply nth_error_Some. congruence.
Qed.

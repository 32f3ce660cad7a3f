From Coq Require Import Ascii String DecimalString DecimalNat Permutation.
From Verif Require Import Base BaseProofs UtilModel NamModel NamSpec.
Local Open Scope list_scope.
Local Open Scope nat_scope.

(** * Text *)
Lemma app_cons_s : forall c (s t : string), (String c s ++ t = String c (s ++ t))%string.
Proof. reflexivity. Qed.

Lemma plain_tail : forall c s, plain (String c s) -> c <> "_"%char /\ plain s.
Proof.
  intros c s H. split.
  - intros E. subst c. apply (H ""%string s). reflexivity.
  - intros a b E. subst s. apply (H (String c a) b). reflexivity.
Qed.

Lemma plain_cons : forall c s, c <> "_"%char -> plain s -> plain (String c s).
Proof.
  intros c s N H [|d a] b E.
  - cbn in E. injection E as E1 E2. contradiction.
  - rewrite app_cons_s in E. injection E as E1 E2. exact (H _ _ E2).
Qed.

Lemma plain_nil : plain ""%string.
Proof. intros [|c a] b E; cbn in E; discriminate E. Qed.

Lemma split_first : forall a a' r r', plain a -> plain a' -> (a ++ "_" ++ r = a' ++ "_" ++ r')%string -> a = a' /\ r = r'.
Proof.
  induction a as [|c a IH]; intros [|c' a'] r r' P P' E.
  - cbn in E. injection E as E. auto.
  - apply plain_tail in P'. cbn in E. injection E as E1 E2. exfalso. apply (proj1 P'). symmetry. exact E1.
  - apply plain_tail in P. cbn in E. injection E as E1 E2. exfalso. apply (proj1 P). exact E1.
  - rewrite !app_cons_s in E. injection E as E1 E2. apply plain_tail in P. apply plain_tail in P'.
    destruct (IH a' r r' (proj2 P) (proj2 P') E2) as [A B]. subst. auto.
Qed.

Lemma split_last : forall b b' r r', plain r -> plain r' -> (b ++ "_" ++ r = b' ++ "_" ++ r')%string -> b = b' /\ r = r'.
Proof.
  induction b as [|c b IH]; intros [|c' b'] r r' P P' E.
  - cbn in E. injection E as E. auto.
  - exfalso. cbn in E. injection E as E1 E2. exact (P b' r' E2).
  - exfalso. cbn in E. injection E as E1 E2. exact (P' b r (eq_sym E2)).
  - rewrite !app_cons_s in E. injection E as E1 E2. destruct (IH b' r r' P P' E2) as [A B]. subst. auto.
Qed.

Lemma decimal_plain : forall n, plain (decimal n).
Proof.
  intros n. unfold decimal. generalize (Nat.to_uint n). intros d.
  induction d; cbn [NilEmpty.string_of_uint]; try (apply plain_cons; [intros E; discriminate E|exact IHd]). exact plain_nil.
Qed.

Lemma decimal_inj : forall n m, decimal n = decimal m -> n = m.
Proof.
  intros n m E. unfold decimal in E.
  assert (F : Nat.to_uint n = Nat.to_uint m).
  { pose proof (NilEmpty.usu (Nat.to_uint n)) as A. pose proof (NilEmpty.usu (Nat.to_uint m)) as B. rewrite E in A. congruence. }
  exact (Unsigned.to_uint_inj _ _ F).
Qed.

(** * Entries *)
Definition names_of (full : string) (size : nat) : list string :=
  if size =? 1 then [full] else map (fun i => (full ++ "_" ++ decimal i)%string) (seq 0 size).

Lemma sym_names : forall next full size, map s_name (sx_sym next full size) = names_of full size.
Proof.
  intros. unfold sx_sym, names_of. destruct (size =? 1); [reflexivity|]. rewrite map_map. reflexivity.
Qed.

Lemma sym_ids : forall next full size, map s_id (sx_sym next full size) = seq next size.
Proof.
  intros. unfold sx_sym. destruct (size =? 1) eqn:E.
  - apply Nat.eqb_eq in E. subst. reflexivity.
  - rewrite map_map. cbn [s_id]. clear E.
    assert (H : forall a, map (fun i => next + i) (seq a size) = seq (next + a) size).
    { induction size as [|size IH]; intros a; [reflexivity|]. cbn [seq map]. rewrite (IH (S a)). rewrite Nat.add_succ_r. reflexivity. }
    rewrite (H 0). rewrite Nat.add_0_r. reflexivity.
Qed.

Lemma names_of_spec : forall full size, entry_names full size (names_of full size).
Proof.
  intros full size. unfold names_of, entry_names. destruct (size =? 1) eqn:E.
  - apply Nat.eqb_eq in E. subst. split; [reflexivity|]. intros [|j] s H; cbn in H; [|destruct j; discriminate H].
    injection H as H. subst. split; [reflexivity|]. intros N. lia.
  - apply Nat.eqb_neq in E. split; [rewrite map_length, seq_length; reflexivity|]. intros j s H.
    split; [intros; lia|intros _]. rewrite nth_error_map in H. destruct (nth_error (seq 0 size) j) as [k|] eqn:K; [|discriminate H].
    cbn in H. injection H as H. subst s. assert (L : j < size).
    { rewrite <- (seq_length size 0). apply nth_error_Some. congruence. }
    rewrite (nth_error_nth' _ 0) in K by (rewrite seq_length; exact L). rewrite seq_nth in K by exact L. injection K as K. subst k. reflexivity.
Qed.

Lemma names_of_nodup : forall full size, NoDup (names_of full size).
Proof.
  intros. unfold names_of. destruct (size =? 1); [constructor; [intros []|constructor]|].
  apply FinFun.Injective_map_NoDup; [|apply seq_NoDup]. intros i j E.
  apply split_last in E; [|apply decimal_plain|apply decimal_plain]. apply decimal_inj. exact (proj2 E).
Qed.

Lemma names_of_In : forall full size s, In s (names_of full size) -> s = full \/ exists n, s = (full ++ "_" ++ decimal n)%string.
Proof.
  intros full size s H. unfold names_of in H. destruct (size =? 1).
  - destruct H as [H|[]]. left. symmetry. exact H.
  - apply in_map_iff in H. destruct H as [n [E _]]. right. exists n. symmetry. exact E.
Qed.

Lemma names_of_apart : forall f f' n n' s, f <> f' -> ~ numbered f -> ~ numbered f' ->
  In s (names_of f n) -> In s (names_of f' n') -> False.
Proof.
  intros f f' n n' s N P P' H H'. apply names_of_In in H. apply names_of_In in H'.
  destruct H as [H|[k H]], H' as [H'|[k' H']]; subst s.
  - contradiction.
  - apply P. exists f', k'. exact H'.
  - apply P'. exists f, k. symmetry. exact H'.
  - apply split_last in H'; [|apply decimal_plain|apply decimal_plain]. exact (N (proj1 H')).
Qed.

(** * One call *)
Definition heads (w : workspace) : list (string * bool) := map (fun m => (nm_name m, nm_prefix m)) (ws_models w).

Definition fulln (w : workspace) (c : creation) : string :=
  match nth_error (ws_models w) (c_model c) with Some m => name_variable m (c_name c) | None => ""%string end.

Lemma full_name_fulln : forall w c f, full_name w c f -> f = fulln w c.
Proof. intros w c f H. destruct H as [m E P|m E P]; unfold fulln, name_variable; rewrite E, P; reflexivity. Qed.

Lemma fulln_full_name : forall w c, c_model c < length (ws_models w) -> full_name w c (fulln w c).
Proof.
  intros w c L. unfold fulln. destruct (nth_error (ws_models w) (c_model c)) as [m|] eqn:E.
  - unfold name_variable. destruct (nm_prefix m) eqn:P; [exact (with_prefix w c m E P)|exact (without_prefix w c m E P)].
  - apply nth_error_None in E. lia.
Qed.

Lemma full_name_heads : forall w w' c f, heads w = heads w' -> full_name w c f -> full_name w' c f.
Proof.
  intros w w' c f H F.
  assert (G : forall m, nth_error (ws_models w) (c_model c) = Some m -> exists m', nth_error (ws_models w') (c_model c) = Some m' /\
    nm_name m' = nm_name m /\ nm_prefix m' = nm_prefix m).
  { intros m E. assert (X : nth_error (heads w) (c_model c) = Some (nm_name m, nm_prefix m)) by (unfold heads; rewrite nth_error_map, E; reflexivity).
    rewrite H in X. unfold heads in X. rewrite nth_error_map in X. destruct (nth_error (ws_models w') (c_model c)) as [m'|]; [|discriminate X].
    cbn in X. injection X as X1 X2. eauto. }
  destruct F as [m E P|m E P]; destruct (G m E) as (m' & E' & N & Q).
  - rewrite <- N. apply (with_prefix w' c m' E'). congruence.
  - apply (without_prefix w' c m' E'). congruence.
Qed.

Lemma set_nth_error : forall (A : Type) i (l : list A) x y j, nth_error l i = Some y ->
  nth_error (firstn i l ++ [x] ++ skipn (S i) l) j = if i =? j then Some x else nth_error l j.
Proof.
  induction i as [|i IH]; intros [|a l] x y j H; try discriminate H.
  - destruct j; reflexivity.
  - destruct j as [|j]; [reflexivity|]. cbn [firstn app nth_error Nat.eqb]. cbn in H. exact (IH l x y j H).
Qed.

Lemma set_split : forall (A : Type) i (l : list A) y, nth_error l i = Some y -> l = firstn i l ++ [y] ++ skipn (S i) l.
Proof.
  induction i as [|i IH]; intros [|a l] y H; try discriminate H.
  - cbn in H. injection H as H. subst. reflexivity.
  - cbn in H. cbn [firstn app]. f_equal. exact (IH l y H).
Qed.

Definition changed_model (c : creation) (next : nat) (m : names_model) : names_model :=
  include (c_vector c) (sx_sym next (name_variable m (c_name c)) (c_size c))
    (match c_vector c with StateV => sx_sym (next + c_size c) (name_variable m (c_name c) ++ "_0_sym")%string (c_size c) | _ => [] end) m.

Lemma call_ok : forall w c m, nth_error (ws_models w) (c_model c) = Some m ->
  exists next, ws_next w + c_size c <= next /\
  call_create c w = (mkWs next (firstn (c_model c) (ws_models w) ++ [changed_model c (ws_next w) m] ++ skipn (S (c_model c)) (ws_models w)),
    Ok (sx_sym (ws_next w) (name_variable m (c_name c)) (c_size c))).
Proof.
  intros w c m E. unfold call_create. rewrite E. unfold create, changed_model.
  destruct (c_vector c); (eexists; split; cycle 1; [reflexivity|cbn [fst]; lia]).
Qed.

Lemma changed_head : forall c n m, nm_name (changed_model c n m) = nm_name m /\ nm_prefix (changed_model c n m) = nm_prefix m.
Proof. intros. unfold changed_model. destruct (c_vector c); split; reflexivity. Qed.

Lemma vector_dec : forall v v' : vector, {v = v'} + {v <> v'}.
Proof. decide equality. Qed.

Lemma changed_vector : forall c n m v, vector_of v (changed_model c n m) =
  vector_of v m ++ (if vector_dec (c_vector c) v then sx_sym n (name_variable m (c_name c)) (c_size c) else []).
Proof.
  intros. unfold changed_model. destruct (vector_dec (c_vector c) v) as [E|E].
  - rewrite E. destruct v; reflexivity.
  - rewrite app_nil_r. destruct (c_vector c), v; try reflexivity; contradiction E; reflexivity.
Qed.


Lemma changed_variables : forall c n m,
  Permutation (variables (changed_model c n m)) (variables m ++ sx_sym n (name_variable m (c_name c)) (c_size c)).
Proof.
  intros. unfold changed_model, variables. set (new := sx_sym n _ _). clearbody new.
  destruct (c_vector c); cbn [include nm_x nm_y nm_u nm_p nm_theta]; rewrite <- ?app_assoc; repeat apply Permutation_app_head;
    try apply Permutation_refl.
  - rewrite (app_assoc _ _ new), (app_assoc _ _ new), (app_assoc _ _ new). apply Permutation_app_comm.
  - rewrite (app_assoc _ _ new), (app_assoc _ _ new). apply Permutation_app_comm.
  - rewrite (app_assoc _ _ new). apply Permutation_app_comm.
  - apply Permutation_app_comm.
Qed.

(** * All calls *)
Lemma call_models : forall w c, c_model c < length (ws_models w) -> forall i m',
  nth_error (ws_models (fst (call_create c w))) i = Some m' ->
  exists m, nth_error (ws_models w) i = Some m /\ m' = if c_model c =? i then changed_model c (ws_next w) m else m.
Proof.
  intros w c L i m' H. destruct (nth_error (ws_models w) (c_model c)) as [m|] eqn:E; [|apply nth_error_None in E; lia].
  destruct (call_ok w c m E) as (next & _ & C). rewrite C in H. cbn [fst ws_models] in H.
  rewrite (set_nth_error _ _ _ _ m i E) in H. destruct (c_model c =? i) eqn:I.
  - apply Nat.eqb_eq in I. subst i. injection H as H. exists m. split; [exact E|symmetry; exact H].
  - exists m'. split; [exact H|reflexivity].
Qed.

Lemma call_heads : forall w c, heads (fst (call_create c w)) = heads w.
Proof.
  intros w c. destruct (nth_error (ws_models w) (c_model c)) as [m|] eqn:E.
  - destruct (call_ok w c m E) as (next & _ & C). rewrite C. cbn [fst]. unfold heads. cbn [ws_models].
    rewrite (set_split _ _ _ _ E) at 3. rewrite !map_app. cbn [map].
    destruct (changed_head c (ws_next w) m) as [A B]. rewrite A, B. reflexivity.
  - unfold call_create. rewrite E. reflexivity.
Qed.

Lemma run_heads : forall cs w, heads (run_caught call_create cs w) = heads w.
Proof.
  induction cs as [|c cs IH]; intros w; [reflexivity|]. unfold run_caught in *. cbn [fold_left]. rewrite IH. apply call_heads.
Qed.

Lemma heads_length : forall w w', heads w = heads w' -> length (ws_models w) = length (ws_models w').
Proof. intros w w' H. unfold heads in H. apply (f_equal (@length _)) in H. rewrite !map_length in H. exact H. Qed.

Lemma named_heads : forall w w' i v cs l, heads w = heads w' -> named_by w i v cs l -> named_by w' i v cs l.
Proof.
  intros w w' i v cs l H N. induction N; [constructor|apply named_other; assumption|].
  eapply named_this; eauto. eapply full_name_heads; eauto.
Qed.

Lemma run_names : forall cs w, addressed w cs -> forall i m', nth_error (ws_models (run_caught call_create cs w)) i = Some m' ->
  exists m, nth_error (ws_models w) i = Some m /\ nm_name m' = nm_name m /\ nm_prefix m' = nm_prefix m /\
    forall v, exists l, vector_names v m' = vector_names v m ++ l /\ named_by w i v cs l.
Proof.
  induction cs as [|c cs IH]; intros w A i m' H.
  - exists m'. repeat split; try assumption. intros v. exists []. split; [symmetry; apply app_nil_r|constructor].
  - unfold run_caught in H. cbn [fold_left] in H. fold (run_caught call_create cs (fst (call_create c w))) in H.
    assert (Lc : c_model c < length (ws_models w)) by (apply A; left; reflexivity).
    pose proof (call_heads w c) as Hd.
    assert (A' : addressed (fst (call_create c w)) cs).
    { intros c' I. rewrite (heads_length _ _ Hd). apply A. right. exact I. }
    destruct (IH _ A' i m' H) as (m1 & E1 & N1 & P1 & V1).
    destruct (call_models w c Lc i m1 E1) as (m & E & M).
    exists m. split; [exact E|]. split; [|split].
    + rewrite N1, M. destruct (c_model c =? i); [apply changed_head|reflexivity].
    + rewrite P1, M. destruct (c_model c =? i); [apply changed_head|reflexivity].
    + intros v. destruct (V1 v) as (l & El & Nl). pose proof (named_heads _ _ _ _ _ _ Hd Nl) as Nw.
      rewrite El, M. destruct (c_model c =? i) eqn:I.
      * apply Nat.eqb_eq in I. unfold vector_names. rewrite changed_vector. destruct (vector_dec (c_vector c) v) as [V|V].
        -- rewrite map_app, sym_names. exists (names_of (name_variable m (c_name c)) (c_size c) ++ l).
           split; [symmetry; apply app_assoc|]. eapply named_this; try eassumption; [|apply names_of_spec].
           pose proof (fulln_full_name w c Lc) as F. unfold fulln in F. rewrite I, E in F. exact F.
        -- rewrite app_nil_r. exists l. split; [reflexivity|]. apply named_other; [right; exact V|exact Nw].
      * exists l. split; [reflexivity|]. apply Nat.eqb_neq in I. apply named_other; [left; exact I|exact Nw].
Qed.

Lemma call_variables : forall w c, c_model c < length (ws_models w) ->
  exists new, Permutation (all_variables (fst (call_create c w))) (all_variables w ++ new) /\
    map s_name new = names_of (fulln w c) (c_size c) /\ map s_id new = seq (ws_next w) (c_size c) /\
    ws_next w + c_size c <= ws_next (fst (call_create c w)).
Proof.
  intros w c L. destruct (nth_error (ws_models w) (c_model c)) as [m|] eqn:E; [|apply nth_error_None in E; lia].
  destruct (call_ok w c m E) as (next & Nx & C). rewrite C. cbn [fst ws_next].
  exists (sx_sym (ws_next w) (name_variable m (c_name c)) (c_size c)).
  split; [|split; [|split; [apply sym_ids|exact Nx]]].
  - unfold all_variables. cbn [ws_models]. rewrite (set_split _ _ _ _ E) at 3. rewrite !flat_map_app. cbn [flat_map]. rewrite !app_nil_r.
    rewrite <- !app_assoc. apply Permutation_app_head.
    eapply Permutation_trans; [apply Permutation_app_tail; apply changed_variables|]. rewrite <- app_assoc.
    apply Permutation_app_head. apply Permutation_app_comm.
  - unfold fulln. rewrite E. apply sym_names.
Qed.

Lemma run_variables : forall cs w, addressed w cs ->
  Permutation (map s_name (all_variables (run_caught call_create cs w)))
    (map s_name (all_variables w) ++ flat_map (fun c => names_of (fulln w c) (c_size c)) cs).
Proof.
  induction cs as [|c cs IH]; intros w A; [cbn; rewrite app_nil_r; apply Permutation_refl|].
  unfold run_caught. cbn [fold_left flat_map]. fold (run_caught call_create cs (fst (call_create c w))).
  assert (Lc : c_model c < length (ws_models w)) by (apply A; left; reflexivity).
  pose proof (call_heads w c) as Hd.
  assert (A' : addressed (fst (call_create c w)) cs).
  { intros c' I. rewrite (heads_length _ _ Hd). apply A. right. exact I. }
  eapply Permutation_trans; [exact (IH _ A')|].
  assert (F : flat_map (fun c0 => names_of (fulln (fst (call_create c w)) c0) (c_size c0)) cs = flat_map (fun c0 => names_of (fulln w c0) (c_size c0)) cs).
  { rewrite !flat_map_concat_map. f_equal. apply map_ext_in. intros c0 I. f_equal. symmetry.
    apply full_name_fulln. eapply full_name_heads; [symmetry; exact Hd|]. apply fulln_full_name. apply A. right. exact I. }
  rewrite F. destruct (call_variables w c Lc) as (new & P & N & _).
  rewrite app_assoc. apply Permutation_app_tail. rewrite <- N, <- map_app. apply Permutation_map. exact P.
Qed.

Lemma run_ids : forall cs w, addressed w cs -> NoDup (map s_id (all_variables w)) ->
  (forall v, In v (all_variables w) -> s_id v < ws_next w) ->
  NoDup (map s_id (all_variables (run_caught call_create cs w))).
Proof.
  induction cs as [|c cs IH]; intros w A D B; [exact D|].
  unfold run_caught. cbn [fold_left]. fold (run_caught call_create cs (fst (call_create c w))).
  assert (Lc : c_model c < length (ws_models w)) by (apply A; left; reflexivity).
  pose proof (call_heads w c) as Hd. destruct (call_variables w c Lc) as (new & P & N & I & X). apply IH.
  - intros c' K. rewrite (heads_length _ _ Hd). apply A. right. exact K.
  - eapply Permutation_NoDup; [apply Permutation_map; apply Permutation_sym; exact P|]. rewrite map_app, I.
    apply NoDup_app_intro; [exact D|apply seq_NoDup|]. intros k K S. apply in_map_iff in K. destruct K as (v & E & K). subst k.
    apply B in K. apply in_seq in S. lia.
  - intros v V. apply (Permutation_in _ P) in V. apply in_app_or in V. destruct V as [V|V].
    + apply B in V. lia.
    + apply (in_map s_id) in V. rewrite I in V. apply in_seq in V. lia.
Qed.

(** * The theorems *)
Lemma untouched_none : forall w, untouched w -> all_variables w = [].
Proof.
  intros w U. unfold all_variables. unfold untouched in U. induction (ws_models w) as [|m ms IH]; [reflexivity|].
  cbn [flat_map]. rewrite IH by (intros m' I; apply U; right; exact I). rewrite (U m) by (left; reflexivity). reflexivity.
Qed.

Lemma c99_names : forall w calls, untouched w -> addressed w calls ->
  length (ws_models (run_caught call_create calls w)) = length (ws_models w) /\
  (forall i m', nth_error (ws_models (run_caught call_create calls w)) i = Some m' ->
    exists m, nth_error (ws_models w) i = Some m /\ nm_name m' = nm_name m /\ nm_prefix m' = nm_prefix m /\
      forall v, named_by w i v calls (vector_names v m')) /\
  NoDup (map s_id (all_variables (run_caught call_create calls w))).
Proof.
  intros w calls U A. split; [|split].
  - apply heads_length. apply run_heads.
  - intros i m' H. destruct (run_names calls w A i m' H) as (m & E & N & P & V). exists m. repeat split; try assumption.
    intros v. destruct (V v) as (l & El & Nl). assert (Z : vector_names v m = []).
    { rewrite (U m) by (eapply nth_error_In; exact E). destruct v; reflexivity. }
    rewrite El, Z. exact Nl.
  - apply run_ids; [exact A| |]; rewrite (untouched_none w U); [constructor|intros v []].
Qed.

Lemma c99_returned : forall w c m, nth_error (ws_models w) (c_model c) = Some m ->
  exists w' m' new, call_create c w = (w', Ok new) /\ nth_error (ws_models w') (c_model c) = Some m' /\
    vector_of (c_vector c) m' = vector_of (c_vector c) m ++ new /\
    (forall v, v <> c_vector c -> vector_of v m' = vector_of v m) /\
    (forall i, i <> c_model c -> nth_error (ws_models w') i = nth_error (ws_models w) i).
Proof.
  intros w c m E. destruct (call_ok w c m E) as (next & _ & C). eexists _, (changed_model c (ws_next w) m), _.
  split; [exact C|]. cbn [ws_models]. split; [|split; [|split]].
  - rewrite (set_nth_error _ _ _ _ m _ E). rewrite Nat.eqb_refl. reflexivity.
  - rewrite changed_vector. destruct (vector_dec (c_vector c) (c_vector c)) as [_|N]; [reflexivity|contradiction N; reflexivity].
  - intros v N. rewrite changed_vector. destruct (vector_dec (c_vector c) v) as [X|_]; [contradiction N; symmetry; exact X|apply app_nil_r].
  - intros i N. rewrite (set_nth_error _ _ _ _ m _ E). destruct (c_model c =? i) eqn:I; [|reflexivity].
    apply Nat.eqb_eq in I. contradiction N. symmetry. exact I.
Qed.

Lemma apart_nodup : forall (f : creation -> string) cs,
  (forall i j c c', nth_error cs i = Some c -> nth_error cs j = Some c' -> f c = f c' -> i = j) ->
  (forall c, In c cs -> ~ numbered (f c)) ->
  NoDup (flat_map (fun c => names_of (f c) (c_size c)) cs).
Proof.
  intros f. induction cs as [|c cs IH]; intros D P; [constructor|]. cbn [flat_map]. apply NoDup_app_intro.
  - apply names_of_nodup.
  - apply IH.
    + intros i j a b Ha Hb E. assert (X : S i = S j) by (apply (D (S i) (S j) a b); assumption). lia.
    + intros a I. apply P. right. exact I.
  - intros s I J. apply in_flat_map in J. destruct J as (c' & Ic & J).
    apply (names_of_apart (f c) (f c') (c_size c) (c_size c') s); try assumption.
    + intros E. destruct (In_nth_error _ _ Ic) as [j Hj]. assert (X : 0 = S j) by (apply (D 0 (S j) c c'); [reflexivity|exact Hj|exact E]). lia.
    + apply P. left. reflexivity.
    + apply P. right. exact Ic.
Qed.

Lemma filter_only : forall (l : list symbol) v, NoDup (map s_name l) -> In v l ->
  filter (fun x => String.eqb (s_name x) (s_name v)) l = [v].
Proof.
  induction l as [|a l IH]; intros v D I; [destruct I|]. cbn [map] in D. apply NoDup_cons_iff in D. destruct D as [N D]. cbn [filter].
  assert (Z : forall x, s_name x = s_name a -> ~ In x l) by (intros x E J; apply N; rewrite <- E; apply in_map; exact J).
  destruct (String.eqb (s_name a) (s_name v)) eqn:E.
  - apply String.eqb_eq in E. destruct I as [I|I]; [|exfalso; exact (Z v (eq_sym E) I)]. subst a. f_equal.
    clear -Z. induction l as [|b l IH]; [reflexivity|]. cbn [filter]. destruct (String.eqb (s_name b) (s_name v)) eqn:B.
    + apply String.eqb_eq in B. exfalso. exact (Z b B (or_introl eq_refl)).
    + apply IH. intros x E J. exact (Z x E (or_intror J)).
  - destruct I as [I|I]; [subst a; rewrite String.eqb_refl in E; discriminate E|]. exact (IH v D I).
Qed.

Lemma c99_apart : forall re w calls, untouched w -> addressed w calls ->
  (forall i j c c' f, nth_error calls i = Some c -> nth_error calls j = Some c' -> full_name w c f -> full_name w c' f -> i = j) ->
  (forall c f, In c calls -> full_name w c f -> ~ numbered f) ->
  forall v, In v (all_variables (run_caught call_create calls w)) ->
  find_variables_in_vector_by_name s_name re [s_name v] (all_variables (run_caught call_create calls w)) true = [v].
Proof.
  intros re w calls U A D P v I. unfold find_variables_in_vector_by_name. cbn [flat_map]. rewrite app_nil_r.
  apply filter_only; [|exact I]. eapply Permutation_NoDup; [apply Permutation_sym; apply run_variables; exact A|].
  rewrite (untouched_none w U). cbn [map app]. apply apart_nodup.
  - intros i j c c' Hi Hj E. apply (D i j c c' (fulln w c) Hi Hj).
    + apply fulln_full_name. apply A. eapply nth_error_In; exact Hi.
    + rewrite E. apply fulln_full_name. apply A. eapply nth_error_In; exact Hj.
  - intros c J. apply (P c _ J). apply fulln_full_name. apply A. exact J.
Qed.

Lemma named_prefix : forall w i v cs l m, nth_error (ws_models w) i = Some m -> nm_prefix m = true -> named_by w i v cs l ->
  forall s, In s l -> exists r, s = (nm_name m ++ "_" ++ r)%string.
Proof.
  intros w i v cs l m E P N. induction N as [|c cs l O N IH|c cs full ns l Ci Cv F X N IH]; intros s I; [destruct I|exact (IH s I)|].
  apply in_app_or in I. destruct I as [I|I]; [|exact (IH s I)].
  assert (Ef : full = (nm_name m ++ "_" ++ c_name c)%string).
  { apply full_name_fulln in F. subst full. unfold fulln. rewrite Ci, E. unfold name_variable. rewrite P. reflexivity. }
  destruct (In_nth_error _ _ I) as [j Hj]. destruct X as [Xl X]. destruct (X j s Hj) as [X1 X2].
  destruct (Nat.eq_dec (c_size c) 1) as [Z|Z].
  - exists (c_name c). rewrite (X1 Z). exact Ef.
  - exists (c_name c ++ "_" ++ decimal j)%string. rewrite (X2 Z), Ef. clear. induction (nm_name m) as [|a t IH]; cbn; [reflexivity|]. f_equal. exact IH.
Qed.

Lemma variables_vector : forall m x, In x (variables m) -> exists v, In x (vector_of v m).
Proof.
  intros m x I. unfold variables in I. repeat (apply in_app_or in I; destruct I as [I|I]).
  - exists StateV. exact I. - exists AlgebraicV. exact I. - exists ControlV. exact I. - exists ParameterV. exact I. - exists ThetaV. exact I.
Qed.

Lemma c99_models : forall w calls, untouched w -> addressed w calls ->
  forall i j m n, nth_error (ws_models (run_caught call_create calls w)) i = Some m ->
  nth_error (ws_models (run_caught call_create calls w)) j = Some n ->
  nm_prefix m = true -> nm_prefix n = true -> nm_name m <> nm_name n -> plain (nm_name m) -> plain (nm_name n) ->
  forall x y, In x (variables m) -> In y (variables n) -> s_name x <> s_name y.
Proof.
  intros w calls U A i j m n Hm Hn Pm Pn D Qm Qn x y Ix Iy E.
  destruct (c99_names w calls U A) as (_ & V & _).
  destruct (V i m Hm) as (m0 & Em & Nm & Om & Vm). destruct (V j n Hn) as (n0 & En & Nn & On & Vn).
  destruct (variables_vector _ _ Ix) as [v Iv]. destruct (variables_vector _ _ Iy) as [u Iu].
  apply (in_map s_name) in Iv. apply (in_map s_name) in Iu.
  destruct (named_prefix w i v calls _ m0 Em ltac:(congruence) (Vm v) _ Iv) as [r R].
  destruct (named_prefix w j u calls _ n0 En ltac:(congruence) (Vn u) _ Iu) as [r' R'].
  rewrite E, R' in R. rewrite <- Nm, <- Nn in R. apply split_first in R; [|assumption|assumption]. apply D. symmetry. exact (proj1 R).
Qed.

(** * Initial conditions *)
Lemma changed_symbols : forall c n m, exists new new_0,
  Permutation (variables (changed_model c n m) ++ nm_x_0 (changed_model c n m)) ((variables m ++ nm_x_0 m) ++ new ++ new_0) /\
  map s_id new = seq n (c_size c) /\
  ((c_vector c = StateV /\ map s_id new_0 = seq (n + c_size c) (c_size c)) \/ (c_vector c <> StateV /\ new_0 = [])).
Proof.
  intros c n m. exists (sx_sym n (name_variable m (c_name c)) (c_size c)).
  exists (match c_vector c with StateV => sx_sym (n + c_size c) (name_variable m (c_name c) ++ "_0_sym")%string (c_size c) | _ => [] end).
  split; [|split; [apply sym_ids|]].
  - assert (X : nm_x_0 (changed_model c n m) = nm_x_0 m ++
      match c_vector c with StateV => sx_sym (n + c_size c) (name_variable m (c_name c) ++ "_0_sym")%string (c_size c) | _ => [] end).
    { unfold changed_model. destruct (c_vector c); cbn [include nm_x_0]; rewrite ?app_nil_r; reflexivity. }
    rewrite X. eapply Permutation_trans; [apply Permutation_app_tail; apply changed_variables|].
    rewrite <- !app_assoc. apply Permutation_app_head. rewrite !app_assoc. apply Permutation_app_tail. apply Permutation_app_comm.
  - destruct (c_vector c); [left|right|right|right|right]; (split; [congruence|]); try reflexivity. apply sym_ids.
Qed.

Lemma call_symbols : forall w c, c_model c < length (ws_models w) ->
  exists new, Permutation (all_symbols (fst (call_create c w))) (all_symbols w ++ new) /\ NoDup (map s_id new) /\
    (forall k, In k (map s_id new) -> ws_next w <= k < ws_next (fst (call_create c w))) /\ ws_next w <= ws_next (fst (call_create c w)).
Proof.
  intros w c L. destruct (nth_error (ws_models w) (c_model c)) as [m|] eqn:E; [|apply nth_error_None in E; lia].
  destruct (call_ok w c m E) as (next & Nx & C).
  assert (Nxt : next = match c_vector c with StateV => ws_next w + c_size c + c_size c | _ => ws_next w + c_size c end).
  { unfold call_create in C. rewrite E in C. unfold create in C. destruct (c_vector c); cbn in C; injection C as C1; symmetry; exact C1. }
  rewrite C. cbn [fst ws_next].
  destruct (changed_symbols c (ws_next w) m) as (new & new_0 & P & I & Z). exists (new ++ new_0). split; [|split; [|split; [|lia]]].
  - unfold all_symbols. cbn [ws_models]. rewrite (set_split _ _ _ _ E) at 3. rewrite !flat_map_app.
    cbn [flat_map]. rewrite !app_nil_r, <- (app_assoc (flat_map _ (firstn _ _))). apply Permutation_app_head.
    eapply Permutation_trans; [apply Permutation_app_tail; exact P|].
    rewrite <- (app_assoc _ (new ++ new_0)), <- (app_assoc (variables m ++ nm_x_0 m)). apply Permutation_app_head. apply Permutation_app_comm.
  - rewrite map_app, I. destruct Z as [[_ Z]|[_ Z]].
    + rewrite Z. rewrite <- seq_app. apply seq_NoDup.
    + rewrite Z. cbn [map]. rewrite app_nil_r. apply seq_NoDup.
  - intros k K. rewrite map_app, I in K. apply in_app_or in K. destruct Z as [[V Z]|[V Z]]; rewrite Z in K.
    + rewrite V in Nxt. destruct K as [K|K]; apply in_seq in K; lia.
    + destruct K as [K|[]]. apply in_seq in K. lia.
Qed.

Lemma run_symbols : forall cs w, addressed w cs -> NoDup (map s_id (all_symbols w)) ->
  (forall v, In v (all_symbols w) -> s_id v < ws_next w) ->
  NoDup (map s_id (all_symbols (run_caught call_create cs w))).
Proof.
  induction cs as [|c cs IH]; intros w A D B; [exact D|].
  unfold run_caught. cbn [fold_left]. fold (run_caught call_create cs (fst (call_create c w))).
  assert (Lc : c_model c < length (ws_models w)) by (apply A; left; reflexivity).
  pose proof (call_heads w c) as Hd. destruct (call_symbols w c Lc) as (new & P & N & I & X). apply IH.
  - intros c' K. rewrite (heads_length _ _ Hd). apply A. right. exact K.
  - eapply Permutation_NoDup; [apply Permutation_map; apply Permutation_sym; exact P|]. rewrite map_app.
    apply NoDup_app_intro; [exact D|exact N|]. intros k K S. apply in_map_iff in K. destruct K as (v & E & K). subst k.
    apply B in K. apply I in S. lia.
  - intros v V. apply (Permutation_in _ P) in V. apply in_app_or in V. destruct V as [V|V].
    + apply B in V. lia.
    + apply (in_map s_id) in V. apply I in V. lia.
Qed.

Lemma sym_length : forall n f k, length (sx_sym n f k) = k.
Proof. intros. rewrite <- (map_length s_id). rewrite sym_ids. apply seq_length. Qed.

Lemma call_same_length : forall w c, c_model c < length (ws_models w) ->
  (forall m, In m (ws_models w) -> length (nm_x_0 m) = length (nm_x m)) ->
  forall m, In m (ws_models (fst (call_create c w))) -> length (nm_x_0 m) = length (nm_x m).
Proof.
  intros w c L H m I. destruct (In_nth_error _ _ I) as [i Hi]. destruct (call_models w c L i m Hi) as (m0 & E & M).
  pose proof (H m0 (nth_error_In _ _ E)) as H0. subst m. destruct (c_model c =? i); [|exact H0].
  unfold changed_model. destruct (c_vector c); cbn [include nm_x_0 nm_x]; try exact H0. rewrite !app_length, !sym_length, H0. reflexivity.
Qed.

Lemma run_same_length : forall cs w, addressed w cs ->
  (forall m, In m (ws_models w) -> length (nm_x_0 m) = length (nm_x m)) ->
  forall m, In m (ws_models (run_caught call_create cs w)) -> length (nm_x_0 m) = length (nm_x m).
Proof.
  induction cs as [|c cs IH]; intros w A H; [exact H|].
  unfold run_caught. cbn [fold_left]. fold (run_caught call_create cs (fst (call_create c w))). apply IH.
  - intros c' K. rewrite (heads_length _ _ (call_heads w c)). apply A. right. exact K.
  - apply call_same_length; [apply A; left; reflexivity|exact H].
Qed.

Lemma c99_initial : forall w calls, untouched w -> addressed w calls ->
  NoDup (map s_id (all_symbols (run_caught call_create calls w))) /\
  forall m, In m (ws_models (run_caught call_create calls w)) -> length (nm_x_0 m) = length (nm_x m).
Proof.
  intros w calls U A.
  assert (Z : all_symbols w = []).
  { unfold all_symbols. unfold untouched in U. clear A. induction (ws_models w) as [|m ms IH]; [reflexivity|].
    cbn [flat_map]. rewrite IH by (intros m' I; apply U; right; exact I). rewrite (U m) by (left; reflexivity). reflexivity. }
  split.
  - apply run_symbols; [exact A| |]; rewrite Z; [constructor|intros v []].
  - apply run_same_length; [exact A|]. intros m I. rewrite (U m I). reflexivity.
Qed.

(** * Examples *)
Lemma tanks_untouched : untouched tanks.
Proof. intros m [E|[E|[E|[]]]]; subst m; reflexivity. Qed.

Lemma tanks_addressed : addressed tanks tank_calls.
Proof. intros c I. repeat (destruct I as [I|I]; [subst c; cbn; lia|]). destruct I. Qed.

Fixpoint last_char (s : string) : option ascii :=
  match s with EmptyString => None | String c EmptyString => Some c | String _ t => last_char t end.

Lemma last_char_app : forall a c t, last_char (a ++ String c t) = last_char (String c t).
Proof.
  induction a as [|d a IH]; intros c t; [reflexivity|]. rewrite app_cons_s. cbn [last_char]. rewrite IH.
  destruct a; reflexivity.
Qed.

Definition digits : string := "0123456789".

Lemma numbered_last : forall s, numbered s -> exists c, last_char s = Some c /\ (c = "_"%char \/ In c (list_ascii_of_string digits)).
Proof.
  intros s (b & n & E). subst s. cbn [append]. rewrite last_char_app. unfold decimal. generalize (Nat.to_uint n). intros d.
  assert (H : forall k u, k = "_"%char \/ In k (list_ascii_of_string digits) ->
    exists c, last_char (String k (NilEmpty.string_of_uint u)) = Some c /\ (c = "_"%char \/ In c (list_ascii_of_string digits))).
  { intros k u. revert k. induction u; intros k K; cbn [NilEmpty.string_of_uint last_char]; try (apply IHu; right; cbn; tauto). exists k. auto. }
  apply H. left. reflexivity.
Qed.

Lemma tanks_apart :
  (forall i j c c' f, nth_error tank_calls i = Some c -> nth_error tank_calls j = Some c' -> full_name tanks c f -> full_name tanks c' f -> i = j) /\
  (forall c f, In c tank_calls -> full_name tanks c f -> ~ numbered f).
Proof.
  split.
  - intros i j c c' f Hi Hj F F'. apply full_name_fulln in F. apply full_name_fulln in F'. subst f.
    do 5 (destruct i as [|i]; [do 5 (destruct j as [|j]; [cbn in Hi, Hj; injection Hi as <-; injection Hj as <-; first [reflexivity|cbn in F'; discriminate F']|]); destruct j; discriminate Hj|]).
    destruct i; discriminate Hi.
  - intros c f I F N. apply full_name_fulln in F. apply numbered_last in N. destruct N as (k & L & K). subst f.
    repeat (destruct I as [I|I]; [subst c; cbn in L; injection L as <-; cbn in K; repeat (destruct K as [K|K]; [discriminate K|]); destruct K|]). destruct I.
Qed.

Lemma letters_plain : plain "left"%string /\ plain "right"%string.
Proof. split; repeat (apply plain_cons; [intros E; discriminate E|]); exact plain_nil. Qed.

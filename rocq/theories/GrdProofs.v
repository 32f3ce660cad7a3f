(** Proofs about degree and number of elements of augmented Lagrangian methods. *)
From Verif Require Import Base GrdModel GrdSpec.
Local Open Scope list_scope.
Local Open Scope nat_scope.
Local Open Scope cmd_scope.

(** ** Lists *)
Lemma put_at_length {A : Type} i (a : A) l : i < length l -> length (put_at i a l) = length l.
Proof.
  intros H. unfold put_at. rewrite app_length, firstn_length. cbn [length]. rewrite skipn_length. lia.
Qed.
Lemma put_at_same {A : Type} i (a : A) l : i < length l -> nth_error (put_at i a l) i = Some a.
Proof.
  intros H. unfold put_at. rewrite nth_error_app2; rewrite firstn_length; [|lia].
  replace (i - Nat.min i (length l)) with 0 by lia. reflexivity.
Qed.
Lemma put_at_other {A : Type} i j (a : A) l : i < length l -> j <> i -> nth_error (put_at i a l) j = nth_error l j.
Proof.
  intros H N. unfold put_at. destruct (Nat.lt_ge_cases j i) as [L | L].
  - rewrite nth_error_app1 by (rewrite firstn_length; lia).
    rewrite <- (firstn_skipn i l) at 2. rewrite nth_error_app1 by (rewrite firstn_length; lia). reflexivity.
  - rewrite nth_error_app2 by (rewrite firstn_length; lia). rewrite firstn_length.
    rewrite Nat.min_l by lia. destruct (j - i) as [|q] eqn:E; [lia|]. cbn [nth_error].
    rewrite <- (firstn_skipn (S i) l) at 2. rewrite nth_error_app2 by (rewrite firstn_length; lia).
    rewrite firstn_length. f_equal. lia.
Qed.
Lemma nth_lt {A : Type} (l : list A) i a : nth_error l i = Some a -> i < length l.
Proof. intros H. apply nth_error_Some. congruence. Qed.
Lemma nth_app {A : Type} (l l' : list A) i a : nth_error l i = Some a -> nth_error (l ++ l') i = Some a.
Proof. intros H. rewrite nth_error_app1; [exact H | exact (nth_lt _ _ _ H)]. Qed.
Lemma nth_last {A : Type} (l : list A) a : nth_error (l ++ [a]) (length l) = Some a.
Proof. rewrite nth_error_app2, Nat.sub_diag by lia. reflexivity. Qed.

(** ** One attribute *)
(** The world after the two attributes agree. *)
Definition agreed_dict (d : entries) (o : grid) : entries := both (chosen d o).

Lemma lookup_ok {A : Type} (get : world -> list A) i a w :
  nth_error (get w) i = Some a -> lookup get i w = (w, Ok a).
Proof. unfold lookup. intros ->. reflexivity. Qed.

(** What the attributes become. *)
Definition attribute_done (a : attribute) (d : entries) (o : grid) : grid := set_value a (either (entry a d) (value a o)) o.

Lemma agree_spec dk ok kw a w d o :
  nth_error (w_dicts w) dk = Some d -> nth_error (w_options w) ok = Some o ->
  (forall x y, entry a d = Some x -> entry a kw = Some y -> x = y) ->
  exists w', agree dk ok kw a w = (w', Ok tt) /\
    w_methods w' = w_methods w /\
    length (w_dicts w') = length (w_dicts w) /\ length (w_options w') = length (w_options w) /\
    nth_error (w_dicts w') dk = Some (set_entry a (Some (either (entry a d) (value a o))) d) /\
    nth_error (w_options w') ok = Some (attribute_done a d o) /\
    (forall j, j <> dk -> nth_error (w_dicts w') j = nth_error (w_dicts w) j) /\
    (forall j, j <> ok -> nth_error (w_options w') j = nth_error (w_options w) j).
Proof.
  intros Hd Ho Hc. pose proof (nth_lt _ _ _ Hd) as Ld. pose proof (nth_lt _ _ _ Ho) as Lo.
  unfold agree, cbind. rewrite (lookup_ok _ _ _ _ Hd), (lookup_ok _ _ _ _ Ho). unfold attribute_done, either.
  assert (same : forall x, entry a d = Some x -> set_entry a (Some x) d = d)
    by (intros x E; destruct a, d; cbn in E |- *; congruence).
  assert (samev : set_value a (value a o) o = o) by (destruct a, o; reflexivity).
  destruct (entry a d) as [x|] eqn:E.
  - assert (G : exists w', put_options ok (set_value a x o) w = (w', Ok tt) /\
      w_methods w' = w_methods w /\ length (w_dicts w') = length (w_dicts w) /\
      length (w_options w') = length (w_options w) /\
      nth_error (w_dicts w') dk = Some (set_entry a (Some x) d) /\
      nth_error (w_options w') ok = Some (set_value a x o) /\
      (forall j, j <> dk -> nth_error (w_dicts w') j = nth_error (w_dicts w) j) /\
      (forall j, j <> ok -> nth_error (w_options w') j = nth_error (w_options w) j)).
    { eexists. split; [reflexivity|]. cbn [w_methods w_dicts w_options]. rewrite (same x eq_refl).
      repeat split; auto using put_at_length, put_at_same. intros j N. apply put_at_other; assumption. }
    destruct (entry a kw) as [y|] eqn:Ek; [|exact G]. rewrite (Hc x y eq_refl eq_refl) in G |- *.
    rewrite Nat.eqb_refl. exact G.
  - eexists. split; [reflexivity|]. cbn [w_methods w_dicts w_options]. rewrite samev.
    repeat split; auto using put_at_length, put_at_same. intros j N. apply put_at_other; assumption.
Qed.

(** The places of what is given. *)
Lemma dict_place_ok g w d : dict_given w g = Some d ->
  exists w' dk, dict_place g w = (w', Ok dk) /\ nth_error (w_dicts w') dk = Some d /\
    w_options w' = w_options w /\ w_methods w' = w_methods w /\
    (g = DNamed dk /\ w_dicts w' = w_dicts w \/
     (exists e, g = DNew e) /\ dk = length (w_dicts w) /\ w_dicts w' = w_dicts w ++ [d]).
Proof.
  destruct g as [e|k]; cbn [dict_given]; intros H.
  - injection H as ->. do 2 eexists. split; [reflexivity|]. cbn. repeat split; [apply nth_last|].
    right. split; [exists d; reflexivity|]. split; reflexivity.
  - do 2 eexists. split.
    + cbn [dict_place]. unfold cbind. rewrite (lookup_ok _ _ _ _ H). reflexivity.
    + repeat split; [exact H|]. left. split; reflexivity.
Qed.
Lemma options_place_ok o w g : options_given w o = Some g ->
  exists w' ok, options_place o w = (w', Ok ok) /\ nth_error (w_options w') ok = Some g /\
    w_dicts w' = w_dicts w /\ w_methods w' = w_methods w /\
    ((o = ONamed ok \/ exists i m, o = OMethod i /\ nth_error (w_methods w) i = Some m /\ me_options m = ok) /\
       w_options w' = w_options w
     \/ (exists e, o = ONew e) /\ ok = length (w_options w) /\ w_options w' = w_options w ++ [g]).
Proof.
  destruct o as [e|k|i]; cbn [options_given]; intros H.
  - injection H as <-. do 2 eexists. split; [reflexivity|]. cbn. repeat split; [apply nth_last|].
    right. split; [exists e; reflexivity|]. split; reflexivity.
  - do 2 eexists. split.
    + cbn [options_place]. unfold cbind. rewrite (lookup_ok _ _ _ _ H). reflexivity.
    + repeat split; [exact H|]. left. split; [left|]; reflexivity.
  - destruct (nth_error (w_methods w) i) as [m|] eqn:Em; [|discriminate]. do 2 eexists. split.
    + cbn [options_place]. unfold cbind. rewrite (lookup_ok _ _ _ _ Em). reflexivity.
    + repeat split; [exact H|]. left. split; [right; exists i, m; repeat split; auto|reflexivity].
Qed.

Lemma no_conflict_at d kw a : ~ conflict d kw -> forall x y, entry a d = Some x -> entry a kw = Some y -> x = y.
Proof.
  intros N x y Hx Hy. destruct (Nat.eq_dec x y) as [E|E]; [exact E|]. exfalso. apply N.
  destruct a; cbn in Hx, Hy; [left|right]; exists x, y; auto.
Qed.

Lemma solver_both g : solver_from (both g) = g.
Proof. destruct g. reflexivity. Qed.

(** ** The constructor *)
Lemma construct g o kw w d og :
  dict_given w g = Some d -> options_given w o = Some og -> ~ conflict d kw ->
  exists w' dk ok, new_method g o kw None None w = (w', Ok (length (w_methods w))) /\
    w_methods w' = w_methods w ++ [mkMeth ok og (chosen d og)] /\
    nth_error (w_dicts w') dk = Some (both (chosen d og)) /\
    nth_error (w_options w') ok = Some (chosen d og) /\
    (g = DNamed dk \/ (exists e, g = DNew e) /\ dk = length (w_dicts w)) /\
    (o = ONamed ok \/ (exists i m, o = OMethod i /\ nth_error (w_methods w) i = Some m /\ me_options m = ok) \/
     (exists e, o = ONew e) /\ ok = length (w_options w)) /\
    (forall j, j <> dk -> nth_error (w_dicts w') j = nth_error (w_dicts w) j) /\
    (forall j, j <> ok -> nth_error (w_options w') j = nth_error (w_options w) j) /\
    length (w_options w) <= length (w_options w') /\ length (w_dicts w) <= length (w_dicts w').
Proof.
  intros Hd Ho Hc.
  destruct (dict_place_ok g w d Hd) as (w1 & dk & E1 & Hdk & O1 & M1 & D1).
  assert (Ho1 : options_given w1 o = Some og)
    by (destruct o; cbn [options_given] in *; rewrite ?M1, ?O1; exact Ho).
  destruct (options_place_ok o w1 og Ho1) as (w2 & ok & E2 & Hok & D2 & M2 & P2).
  rewrite <- D2 in Hdk.
  destruct (agree_spec dk ok kw Degree w2 d og Hdk Hok (no_conflict_at d kw Degree Hc))
    as (w3 & E3 & M3 & LD3 & LO3 & Hd3 & Ho3 & Od3 & Oo3).
  destruct (agree_spec dk ok kw Elements w3 _ _ Hd3 Ho3) as (w4 & E4 & M4 & LD4 & LO4 & Hd4 & Ho4 & Od4 & Oo4).
  { intros x y Hx Hy. destruct d; cbn in Hx. exact (no_conflict_at _ _ Elements Hc x y Hx Hy). }
  set (c := chosen d og).
  assert (Ed : nth_error (w_dicts w4) dk = Some (both c)) by (rewrite Hd4; destruct d, og; reflexivity).
  assert (Eo : nth_error (w_options w4) ok = Some c) by (rewrite Ho4; destruct d, og; reflexivity).
  exists (mkWorld (w_dicts w4) (w_options w4) (w_methods w4 ++ [mkMeth ok og c])), dk, ok.
  split.
  - unfold new_method, cbind at 1. rewrite E1. unfold cbind at 1. rewrite E2. unfold outcome, cbind at 1, cret at 1.
    unfold cbind at 1. rewrite (lookup_ok _ _ _ _ Hok). unfold cbind at 1. rewrite E3. unfold cbind at 1. rewrite E4.
    unfold cbind at 1. rewrite (lookup_ok _ _ _ _ Ed). unfold cbind, cret. rewrite solver_both.
    rewrite M4, M3, M2, M1. reflexivity.
  - cbn [w_dicts w_options w_methods].
    assert (Hl : length (w_options w) <= length (w_options w2))
      by (destruct P2 as [[_ ->]|[_ [_ ->]]]; rewrite ?app_length, O1; cbn [length]; lia).
    assert (Hl' : length (w_dicts w) <= length (w_dicts w2))
      by (rewrite D2; destruct D1 as [[_ ->]|(_ & _ & ->)]; rewrite ?app_length; cbn [length]; lia).
    repeat split; try assumption; try lia.
    + rewrite M4, M3, M2, M1. reflexivity.
    + destruct D1 as [[-> _]|(He & -> & _)]; auto.
    + destruct P2 as [[[->|(i & m & -> & Hm & E)] _]|(He & -> & _)].
      * left. reflexivity.
      * right. left. exists i, m. rewrite <- M1. auto.
      * right. right. split; [exact He|]. rewrite O1. reflexivity.
    + intros j N. rewrite Od4, Od3, D2 by exact N. destruct D1 as [[_ ->]|(_ & -> & ->)]; [reflexivity|].
      destruct (Nat.lt_ge_cases j (length (w_dicts w))) as [L|L]; [apply nth_error_app1; exact L|].
      transitivity (@None entries); [|symmetry]; apply nth_error_None; [rewrite app_length; cbn [length]; lia|exact L].
    + intros j N. rewrite Oo4, Oo3 by exact N. destruct P2 as [[_ ->]|(_ & -> & ->)]; [rewrite O1; reflexivity|].
      rewrite O1 in N |- *. destruct (Nat.lt_ge_cases j (length (w_options w))) as [L|L]; [apply nth_error_app1; exact L|].
      transitivity (@None grid); [|symmetry]; apply nth_error_None; [rewrite app_length; cbn [length]; lia|exact L].
Qed.

(** ** What calls keep *)
Definition keeps {A : Type} (P : world -> Prop) (m : cmd world A) (Q : A -> Prop) : Prop :=
  forall w, P w -> match m w with (w', Ok a) => P w' /\ Q a | (w', Raise _) => P w' end.

Lemma keeps_bind {A B : Type} (P : world -> Prop) (m : cmd world A) (f : A -> cmd world B) Q R :
  keeps P m Q -> (forall a, Q a -> keeps P (f a) R) -> keeps P (cbind m f) R.
Proof.
  intros H1 H2 w Hw. unfold cbind. specialize (H1 w Hw). destruct (m w) as [w' [a|e]]; [|exact H1].
  exact (H2 a (proj2 H1) w' (proj1 H1)).
Qed.
Lemma keeps_weak {A : Type} (P : world -> Prop) (m : cmd world A) (Q R : A -> Prop) :
  (forall a, Q a -> R a) -> keeps P m Q -> keeps P m R.
Proof. intros H K w Hw. specialize (K w Hw). destruct (m w) as [w' [a|e]]; [|exact K]. split; [apply K | apply H, K]. Qed.
Lemma keeps_ret {A : Type} (P : world -> Prop) (a : A) (Q : A -> Prop) : Q a -> keeps P (cret a) Q.
Proof. intros H w Hw. cbn. auto. Qed.
Lemma keeps_raise {A : Type} (P : world -> Prop) e (Q : A -> Prop) : keeps P (craise e) Q.
Proof. intros w Hw. exact Hw. Qed.
Lemma keeps_lookup {A : Type} (P : world -> Prop) (get : world -> list A) i : keeps P (lookup get i) (fun _ => True).
Proof. intros w Hw. unfold lookup. destruct (nth_error (get w) i); auto. Qed.
Lemma keeps_modify (P : world -> Prop) f : (forall w, P w -> P (f w)) -> keeps P (cmodify f) (fun _ => True).
Proof. intros H w Hw. cbn. auto. Qed.
Lemma keeps_outcome (P : world -> Prop) e : keeps P (outcome e) (fun _ => True).
Proof. destruct e; [apply keeps_raise | apply keeps_ret; exact I]. Qed.
Lemma keeps_run_all {O A : Type} (P : world -> Prop) (f : O -> cmd world A) l Q :
  (forall o, keeps P (f o) Q) -> keeps P (run_all f l) (fun _ => True).
Proof.
  intros H. induction l as [|o l IH]; intros w Hw; cbn [run_all]; [auto|].
  specialize (H o w Hw). destruct (f o w) as [w' [a|e]]; [apply IH, H | exact H].
Qed.

Lemma after_keeps (P : world -> Prop) (C : call -> Prop) : (forall c, C c -> keeps P (step c) (fun _ => True)) ->
  forall cs w, Forall C cs -> P w -> P (after cs w).
Proof.
  intros H cs. unfold after, run_caught. induction cs as [|c cs IH]; intros w Hcs Hw; [exact Hw|].
  inversion Hcs; subst. cbn [fold_left]. apply IH; [assumption|]. specialize (H c ltac:(assumption) w Hw).
  destruct (step c w) as [w' [a|e]]; [apply H | exact H].
Qed.
Lemma after_keeps_all (P : world -> Prop) : (forall c, keeps P (step c) (fun _ => True)) -> forall cs w, P w -> P (after cs w).
Proof.
  intros H cs w Hw. apply (after_keeps P (fun _ => True)); [intros c _; apply H | | exact Hw].
  apply Forall_forall. auto.
Qed.

(** Options stay where they are. *)
Definition sound (w : world) : Prop := forall j m, nth_error (w_methods w) j = Some m -> me_options m < length (w_options w).

Lemma agree_longer dk ok kw a w : length (w_options w) <= length (w_options (fst (agree dk ok kw a w))).
Proof.
  unfold agree, cbind, lookup. destruct (nth_error (w_dicts w) dk) as [d|]; [|cbn; lia].
  destruct (nth_error (w_options w) ok) as [o|] eqn:Eo; [|cbn; lia].
  destruct (entry a d) as [x|]; [destruct (entry a kw) as [y|]; [destruct (x =? y)|]|]; cbn; rewrite ?put_at_length; eauto using nth_lt.
Qed.

(** A predicate on worlds that is not disturbed by new dictionaries and options. *)
Section Construct.
  Variables (P : world -> Prop) (D O : nat -> Prop).
  Hypothesis to_dict : forall w k a v d, P w -> D k -> nth_error (w_dicts w) k = Some d -> entry a d = None ->
    P (mkWorld (put_at k (set_entry a v d) (w_dicts w)) (w_options w) (w_methods w)).
  Hypothesis to_options : forall w k g g0, P w -> O k -> nth_error (w_options w) k = Some g0 ->
    P (mkWorld (w_dicts w) (put_at k g (w_options w)) (w_methods w)).
  Hypothesis to_methods : forall w k g s, P w -> O k -> k < length (w_options w) ->
    P (mkWorld (w_dicts w) (w_options w) (w_methods w ++ [mkMeth k g s])).

  Lemma keeps_agree dk ok kw a : D dk -> O ok -> keeps P (agree dk ok kw a) (fun _ => True).
  Proof.
    intros Hd Ho w Hw. unfold agree, cbind, lookup. destruct (nth_error (w_dicts w) dk) as [d|] eqn:Ed; [|exact Hw].
    destruct (nth_error (w_options w) ok) as [o|] eqn:Eo; [|exact Hw].
    destruct (entry a d) as [x|] eqn:Ea.
    - assert (G : P (fst (put_options ok (set_value a x o) w))) by (apply (to_options w ok _ o Hw Ho Eo)).
      destruct (entry a kw) as [y|]; [destruct (x =? y)|]; try (split; [exact G | exact I]). exact Hw.
    - split; [|exact I]. apply (to_dict w dk a _ d Hw Hd Ed Ea).
  Qed.

  Lemma keeps_new g o kw early late :
    keeps P (dict_place g) D -> keeps P (options_place o) O -> keeps P (new_method g o kw early late) (fun _ => True).
  Proof.
    intros Hg Ho. unfold new_method. apply (keeps_bind P _ _ _ _ Hg). intros dk Hdk.
    apply (keeps_bind P _ _ _ _ Ho). intros ok Hok.
    apply (keeps_bind P _ _ (fun _ => True)); [apply keeps_outcome|]. intros _ _.
    intros w Hw. unfold cbind at 1, lookup at 1. destruct (nth_error (w_options w) ok) as [nu|] eqn:En; [|exact Hw].
    set (Q := fun w => P w /\ ok < length (w_options w)).
    enough (K : keeps Q (agree dk ok kw Degree ;;; agree dk ok kw Elements ;;; d <~ lookup w_dicts dk ;; outcome late ;;;
        (fun w => (mkWorld (w_dicts w) (w_options w) (w_methods w ++ [mkMeth ok nu (solver_from d)]),
                   Ok (length (w_methods w))))) (fun _ => True)).
    { specialize (K w (conj Hw (nth_lt _ _ _ En))).
      match type of K with (let (_, _) := ?t in _) => destruct t as [w' [a|e]] end;
        [split; [apply K | exact I] | apply K]. }
    assert (KA : forall a, keeps Q (agree dk ok kw a) (fun _ => True)).
    { intros a w0 [H0 L0]. pose proof (keeps_agree dk ok kw a Hdk Hok w0 H0) as K1. pose proof (agree_longer dk ok kw a w0) as K2.
      destruct (agree dk ok kw a w0) as [w' [x|e]]; cbn [fst] in K2; unfold Q; [split; [split; [apply K1|lia]|exact I] | split; [exact K1|lia]]. }
    apply (keeps_bind Q _ _ (fun _ => True)); [apply KA|]. intros _ _.
    apply (keeps_bind Q _ _ (fun _ => True)); [apply KA|]. intros _ _.
    apply (keeps_bind Q _ _ (fun _ => True)); [apply keeps_lookup|]. intros d _.
    apply (keeps_bind Q _ _ (fun _ => True)); [apply keeps_outcome|]. intros _ _.
    intros w0 [H0 L0]. split; [|exact I]. split; [apply to_methods; assumption | exact L0].
  Qed.
End Construct.

(** ** Every world that is reached is sound *)
Lemma keeps_dict_place (P : world -> Prop) g : (forall w e, P w -> P (mkWorld (w_dicts w ++ [e]) (w_options w) (w_methods w))) ->
  keeps P (dict_place g) (fun _ => True).
Proof.
  intros H. destruct g as [e|k]; [intros w Hw; cbn; auto|].
  apply (keeps_bind P _ _ (fun _ => True)); [apply keeps_lookup|]. intros _ _. apply keeps_ret. exact I.
Qed.

Lemma sound_step c : keeps sound (step c) (fun _ => True).
Proof.
  assert (new : forall g o kw early late, keeps sound (new_method g o kw early late) (fun _ => True)).
  { intros. apply (keeps_new sound (fun _ => True) (fun _ => True)).
    - intros w k a v d H _ Hd _. exact H.
    - intros w k g1 g0 H _ Hk j m Hj. cbn [w_options w_methods] in *. rewrite put_at_length by exact (nth_lt _ _ _ Hk). exact (H j m Hj).
    - intros w k g1 s H _ Hk j m Hj. cbn [w_options w_methods] in *.
      destruct (Nat.lt_ge_cases j (length (w_methods w))) as [L|L].
      + rewrite nth_error_app1 in Hj by exact L. exact (H j m Hj).
      + rewrite nth_error_app2 in Hj by exact L. destruct (j - length (w_methods w)) as [|q]; [injection Hj as <-; exact Hk|].
        destruct q; discriminate.
    - apply keeps_dict_place. intros w e H. exact H.
    - destruct o as [e|k|i]; cbn [options_place].
      + intros w H. split; [|exact I]. intros j m Hj. cbn [w_options w_methods] in *. rewrite app_length. specialize (H j m Hj). lia.
      + apply (keeps_bind sound _ _ (fun _ => True)); [apply keeps_lookup|]. intros _ _. apply keeps_ret. exact I.
      + apply (keeps_bind sound _ _ (fun _ => True)); [apply keeps_lookup|]. intros m0 _. apply keeps_ret. exact I. }
  assert (wr : forall k a n, keeps sound (write_options k a n) (fun _ => True)).
  { intros k a n w H. unfold write_options, cbind, lookup. destruct (nth_error (w_options w) k) as [o|] eqn:E; [|exact H].
    split; [|exact I]. intros j m Hj. cbn [w_options w_methods] in *. rewrite put_at_length by exact (nth_lt _ _ _ E). exact (H j m Hj). }
  destruct c as [e|k a v|e|k a n|g o kw early late|i a n|i a n|dk own nodes]; cbn [step].
  - intros w H. cbn. auto.
  - intros w H. unfold cbind, lookup. destruct (nth_error (w_dicts w) k); [split; [exact H|exact I]|exact H].
  - intros w H. split; [|exact I]. intros j m Hj. cbn in *. rewrite app_length. specialize (H j m Hj). lia.
  - apply wr.
  - apply (keeps_bind sound _ _ (fun _ => True)); [apply new|]. intros _ _. apply keeps_ret. exact I.
  - apply (keeps_bind sound _ _ (fun _ => True)); [apply keeps_lookup|]. intros m _. apply wr.
  - intros w H. unfold cbind, lookup. destruct (nth_error (w_methods w) i) as [m|] eqn:E; [|exact H].
    split; [|exact I]. intros j m' Hj. cbn [w_methods w_options put_method cmodify fst snd] in *.
    destruct (Nat.eq_dec j i) as [->|N].
    + rewrite put_at_same in Hj by exact (nth_lt _ _ _ E). injection Hj as <-. exact (H i m E).
    + rewrite put_at_other in Hj by (try exact (nth_lt _ _ _ E); exact N). exact (H j m' Hj).
  - apply (keeps_run_all sound _ _ (fun _ => True)). intros x. apply new.
Qed.
Lemma reached_sound w : reached w -> sound w.
Proof.
  intros [cs ->]. apply (after_keeps_all sound); [exact sound_step|]. intros j m H. destruct j; discriminate.
Qed.

(** ** A method keeps what it was made with *)
Section Alone.
  Variables (i k : nat) (m : meth) (o : grid).
  Hypothesis Hk : me_options m = k.
  Definition holds (w : world) : Prop :=
    nth_error (w_methods w) i = Some m /\ nth_error (w_options w) k = Some o /\
    (forall j m', nth_error (w_methods w) j = Some m' -> j <> i -> me_options m' <> k).

  Lemma alone_step c : leaves_alone i k c -> keeps holds (step c) (fun _ => True).
  Proof.
    intros Hc.
    assert (push : forall w g, holds w -> holds (mkWorld (w_dicts w) (w_options w ++ [g]) (w_methods w))).
    { intros w g (H1 & H2 & H3). split; [exact H1|]. split; [apply nth_app; exact H2 | exact H3]. }
    assert (new : forall g o' kw early late, leaves_alone i k (AMethod g o' kw early late) ->
                  keeps holds (new_method g o' kw early late) (fun _ => True)).
    { intros g o' kw early late L. apply (keeps_new holds (fun _ => True) (fun j => j <> k)).
      - intros w j a v d H _ _ _. exact H.
      - intros w j g1 g0 (H1 & H2 & H3) N Hj. split; [exact H1|]. split; [|exact H3]. cbn [w_options].
        rewrite put_at_other by (try exact (nth_lt _ _ _ Hj); congruence). exact H2.
      - intros w j g1 s (H1 & H2 & H3) N Hj. split; [apply nth_app; exact H1|]. split; [exact H2|]. cbn [w_methods].
        intros q m' Hq Nq. destruct (Nat.lt_ge_cases q (length (w_methods w))) as [Lq|Lq].
        + rewrite nth_error_app1 in Hq by exact Lq. exact (H3 q m' Hq Nq).
        + rewrite nth_error_app2 in Hq by exact Lq. destruct (q - length (w_methods w)) as [|r]; [injection Hq as <-; exact N|].
          destruct r; discriminate.
      - apply keeps_dict_place. intros w e H. exact H.
      - destruct o' as [e|k'|i']; cbn [options_place leaves_alone] in L |- *.
        + intros w H. split; [apply push; exact H|]. destruct H as (_ & H & _). pose proof (nth_lt _ _ _ H). lia.
        + apply (keeps_bind holds _ _ (fun _ => True)); [apply keeps_lookup|]. intros _ _. apply keeps_ret. exact L.
        + intros w H. unfold cbind, lookup. destruct (nth_error (w_methods w) i') as [m'|] eqn:E; [|exact H].
          split; [exact H|]. exact (proj2 (proj2 H) i' m' E L). }
    assert (wr : forall k' a n, k' <> k -> keeps holds (write_options k' a n) (fun _ => True)).
    { intros k' a n N w H. unfold write_options, cbind, lookup. destruct (nth_error (w_options w) k') as [o'|] eqn:E; [|exact H].
      split; [|exact I]. destruct H as (H1 & H2 & H3). split; [exact H1|]. split; [|exact H3].
      cbn [w_options put_options cmodify fst snd]. rewrite put_at_other by (try exact (nth_lt _ _ _ E); congruence). exact H2. }
    destruct c as [e|k' a v|e|k' a n|g o' kw early late|i' a n|i' a n|dk own nodes]; cbn [step].
    - intros w H. cbn. auto.
    - intros w H. unfold cbind, lookup. destruct (nth_error (w_dicts w) k'); [split; [exact H|exact I]|exact H].
    - intros w H. split; [apply push; exact H|exact I].
    - apply wr. exact Hc.
    - apply (keeps_bind holds _ _ (fun _ => True)); [apply new; exact Hc|]. intros _ _. apply keeps_ret. exact I.
    - intros w H. unfold cbind at 1, lookup. destruct (nth_error (w_methods w) i') as [m'|] eqn:E; [|exact H].
      apply (wr (me_options m') a n (proj2 (proj2 H) i' m' E Hc) w H).
    - intros w H. unfold cbind, lookup. destruct (nth_error (w_methods w) i') as [m'|] eqn:E; [|exact H].
      split; [|exact I]. destruct H as (H1 & H2 & H3). cbn [leaves_alone] in Hc.
      split; [|split; [exact H2|]]; cbn [w_methods put_method cmodify fst snd].
      + rewrite put_at_other by (try exact (nth_lt _ _ _ E); congruence). exact H1.
      + intros j m'' Hj N. destruct (Nat.eq_dec j i') as [->|N'].
        * rewrite put_at_same in Hj by exact (nth_lt _ _ _ E). injection Hj as <-. exact (H3 i' m' E N).
        * rewrite put_at_other in Hj by (try exact (nth_lt _ _ _ E); exact N'). exact (H3 j m'' Hj N).
    - apply (keeps_run_all holds _ _ (fun _ => True)). intros x. apply new. exact I.
  Qed.
End Alone.

Lemma kept g e kw w d cs : reached w -> dict_given w g = Some d -> ~ conflict d kw ->
  let o := mkGrid (either (e_degree e) 3) (either (e_elements e) 20) in
  let i := length (w_methods w) in
  Forall (leaves_alone i (length (w_options w))) cs ->
  exists w', step (AMethod g (ONew e) kw None None) w = (w', Ok tt) /\
    seen_at (after cs w') i = Some (mkSeen (chosen d o) o (chosen d o)).
Proof.
  intros R Hd Hc o i Hcs.
  destruct (construct g (ONew e) kw w d o Hd eq_refl Hc) as (w' & dk & ok & E & M & D & O & _ & Po & _ & Oo & _).
  destruct Po as [P|[(? & ? & P & _)|[_ ->]]]; [discriminate|discriminate|].
  exists w'. split; [cbn [step]; unfold cbind; rewrite E; reflexivity|].
  set (m := mkMeth (length (w_options w)) o (chosen d o)) in *.
  assert (H : holds i (length (w_options w)) m (chosen d o) (after cs w')).
  { apply (after_keeps _ _ (alone_step i (length (w_options w)) m (chosen d o) eq_refl) cs w' Hcs).
    split; [rewrite M; apply nth_last|]. split; [exact O|]. intros j m' Hj N. rewrite M in Hj.
    destruct (Nat.lt_ge_cases j (length (w_methods w))) as [L|L].
    - rewrite nth_error_app1 in Hj by exact L. pose proof (reached_sound w R j m' Hj). lia.
    - rewrite nth_error_app2 in Hj by exact L. destruct (j - length (w_methods w)) as [|q] eqn:Eq.
      + exfalso. apply N. unfold i. lia.
      + destruct q; discriminate. }
  destruct H as (H1 & H2 & _). unfold seen_at. rewrite H1. unfold m. cbn [me_options]. rewrite H2. reflexivity.
Qed.

(** ** A dictionary that was used decides *)
Section Used.
  Variables (k : nat) (c : grid).
  Definition used (w : world) : Prop := nth_error (w_dicts w) k = Some (both c).
  Lemma used_step a : keeps_dict k a -> keeps used (step a) (fun _ => True).
  Proof.
    intros Ha.
    assert (new : forall g o' kw early late, keeps used (new_method g o' kw early late) (fun _ => True)).
    { intros g o' kw early late. apply (keeps_new used (fun _ => True) (fun _ => True)).
      - intros w j a0 v d H _ Hd Hn. unfold used. cbn [w_dicts]. rewrite put_at_other; [exact H|exact (nth_lt _ _ _ Hd)|].
        intros <-. unfold used in H. rewrite H in Hd. injection Hd as <-. destruct a0; discriminate.
      - intros w j g1 g0 H _ _. exact H.
      - intros w j g1 s H _ _. exact H.
      - apply keeps_dict_place. intros w e H. unfold used. cbn [w_dicts]. apply nth_app. exact H.
      - destruct o' as [e|k'|i']; cbn [options_place].
        + intros w H. split; [exact H|exact I].
        + apply (keeps_bind used _ _ (fun _ => True)); [apply keeps_lookup|]. intros _ _. apply keeps_ret. exact I.
        + apply (keeps_bind used _ _ (fun _ => True)); [apply keeps_lookup|]. intros m0 _. apply keeps_ret. exact I. }
    assert (wr : forall k' a n, keeps used (write_options k' a n) (fun _ => True)).
    { intros k' a0 n w H. unfold write_options, cbind, lookup. destruct (nth_error (w_options w) k'); [split; [exact H|exact I]|exact H]. }
    destruct a as [e|k' a v|e|k' a n|g o' kw early late|i' a n|i' a n|dk own nodes]; cbn [step].
    - intros w H. split; [|exact I]. unfold used. cbn. apply nth_app. exact H.
    - intros w H. unfold cbind, lookup. destruct (nth_error (w_dicts w) k') as [d|] eqn:E; [|exact H].
      split; [|exact I]. unfold used. cbn [w_dicts put_dict cmodify fst snd]. cbn [keeps_dict] in Ha.
      rewrite put_at_other by (try exact (nth_lt _ _ _ E); congruence). exact H.
    - intros w H. split; [exact H|exact I].
    - apply wr.
    - apply (keeps_bind used _ _ (fun _ => True)); [apply new|]. intros _ _. apply keeps_ret. exact I.
    - apply (keeps_bind used _ _ (fun _ => True)); [apply keeps_lookup|]. intros m _. apply wr.
    - intros w H. unfold cbind, lookup. destruct (nth_error (w_methods w) i') as [m'|]; [split; [exact H|exact I]|exact H].
    - apply (keeps_run_all used _ _ (fun _ => True)). intros x. apply new.
  Qed.
End Used.

Lemma seen_new w w' ok og c : w_methods w' = w_methods w ++ [mkMeth ok og c] -> nth_error (w_options w') ok = Some c ->
  seen_at w' (length (w_methods w)) = Some (mkSeen c og c).
Proof. intros M O. unfold seen_at. rewrite M, nth_last. cbn [me_options]. rewrite O. reflexivity. Qed.

(** Whatever options the later method is given. *)
Lemma same_dictionary w k o kw d og cs o' kw' og' : nth_error (w_dicts w) k = Some d -> options_given w o = Some og ->
  ~ conflict d kw -> Forall (keeps_dict k) cs ->
  exists w1, step (AMethod (DNamed k) o kw None None) w = (w1, Ok tt) /\
    let w2 := after cs w1 in
    options_given w2 o' = Some og' -> ~ conflict (both (chosen d og)) kw' ->
    exists w3, step (AMethod (DNamed k) o' kw' None None) w2 = (w3, Ok tt) /\
      seen_at w3 (length (w_methods w2)) = Some (mkSeen (chosen d og) og' (chosen d og)).
Proof.
  intros Hd Ho Hc Hcs.
  destruct (construct (DNamed k) o kw w d og Hd Ho Hc) as (w1 & dk & ok & E & M & D & O & Pd & _).
  assert (dk = k) by (destruct Pd as [P|[[e P] _]]; congruence). subst dk.
  exists w1. split; [cbn [step]; unfold cbind; rewrite E; reflexivity|]. intros w2 Ho' Hc'.
  assert (U : used k (chosen d og) w2).
  { apply (after_keeps _ _ (used_step k (chosen d og)) cs w1 Hcs). exact D. }
  destruct (construct (DNamed k) o' kw' w2 _ og' U Ho' Hc') as (w3 & dk & ok' & E' & M' & _ & O' & _).
  exists w3. split; [cbn [step]; unfold cbind; rewrite E'; reflexivity|].
  assert (C : chosen (both (chosen d og)) og' = chosen d og) by (destruct d, og; reflexivity).
  rewrite C in M', O'. exact (seen_new w2 w3 ok' og' _ M' O').
Qed.

(** ** What a construction changes *)
Lemma constructed w g o kw d og : dict_given w g = Some d -> options_given w o = Some og -> ~ conflict d kw ->
  exists w', step (AMethod g o kw None None) w = (w', Ok tt) /\
    length (w_methods w') = S (length (w_methods w)) /\
    seen_at w' (length (w_methods w)) = Some (mkSeen (chosen d og) og (chosen d og)) /\
    (forall j s, seen_at w j = Some s ->
       seen_at w' j = Some (mkSeen (if shares w o j then chosen d og else sn_options s) (sn_multipliers s) (sn_solver s))) /\
    (forall k e, nth_error (w_dicts w) k = Some e ->
       nth_error (w_dicts w') k = Some (match g with
                                        | DNamed k' => if k =? k' then both (chosen d og) else e
                                        | DNew _ => e
                                        end)).
Proof.
  intros Hd Ho Hc.
  destruct (construct g o kw w d og Hd Ho Hc) as (w' & dk & ok & E & M & D & O & Pd & Po & Fd & Fo & Lo & Ld).
  exists w'. split; [cbn [step]; unfold cbind; rewrite E; reflexivity|].
  split; [rewrite M, app_length; cbn [length]; lia|].
  split; [exact (seen_new w w' ok og _ M O)|]. split.
  - intros j s. unfold seen_at at 1. destruct (nth_error (w_methods w) j) as [m|] eqn:Em; [|discriminate].
    destruct (nth_error (w_options w) (me_options m)) as [oj|] eqn:Eo; [|discriminate]. intros Es. injection Es as <-.
    cbn [sn_options sn_multipliers sn_solver]. unfold seen_at. rewrite M, (nth_app _ _ _ _ Em).
    assert (S : shares w o j = (me_options m =? ok)).
    { unfold shares. rewrite Em. destruct Po as [->|[(i & mi & -> & Hi & Hio)|[[e ->] ->]]]; cbn [named_options].
      - reflexivity.
      - rewrite Hi, Hio. reflexivity.
      - symmetry. apply Nat.eqb_neq. pose proof (nth_lt _ _ _ Eo). lia. }
    rewrite S. destruct (Nat.eqb_spec (me_options m) ok) as [->|N]; [rewrite O|rewrite (Fo _ N), Eo]; reflexivity.
  - intros k e Hk. destruct Pd as [->|[[e' ->] ->]].
    + destruct (Nat.eqb_spec k dk) as [->|N]; [exact D|]. rewrite (Fd _ N). exact Hk.
    + rewrite Fd by (pose proof (nth_lt _ _ _ Hk); lia). exact Hk.
Qed.

(** Different values are refused; no method is made or changed in its solver. *)
Lemma refused w g o kw late d og : dict_given w g = Some d -> options_given w o = Some og -> conflict d kw ->
  exists w', step (AMethod g o kw None late) w = (w', Raise ValueError) /\ w_methods w' = w_methods w.
Proof.
  intros Hd Ho Hc.
  destruct (dict_place_ok g w d Hd) as (w1 & dk & E1 & Hdk & O1 & M1 & D1).
  assert (Ho1 : options_given w1 o = Some og)
    by (destruct o; cbn [options_given] in *; rewrite ?M1, ?O1; exact Ho).
  destruct (options_place_ok o w1 og Ho1) as (w2 & ok & E2 & Hok & D2 & M2 & P2).
  rewrite <- D2 in Hdk.
  assert (bad : forall a w3 d3 o3 x y, nth_error (w_dicts w3) dk = Some d3 -> nth_error (w_options w3) ok = Some o3 ->
            entry a d3 = Some x -> entry a kw = Some y -> x <> y -> agree dk ok kw a w3 = (w3, Raise ValueError)).
  { intros a w3 d3 o3 x y H1 H2 Hx Hy N. unfold agree, cbind. rewrite (lookup_ok _ _ _ _ H1), (lookup_ok _ _ _ _ H2), Hx, Hy.
    apply Nat.eqb_neq in N. rewrite N. reflexivity. }
  assert (unf : forall r, agree dk ok kw Degree w2 = r -> (forall w3, r <> (w3, Ok tt)) ->
     step (AMethod g o kw None late) w = (fst r, match snd r with Ok _ => Ok tt | Raise e => Raise e end)).
  { intros r Er N. cbn [step]. unfold new_method, cbind. rewrite E1, E2. cbn [outcome cret].
    rewrite (lookup_ok _ _ _ _ Hok), Er. destruct r as [w3 [[]|e]]; [exfalso; exact (N w3 eq_refl)|reflexivity]. }
  assert (first : differ (e_degree d) (e_degree kw) \/ ~ differ (e_degree d) (e_degree kw)).
  { unfold differ. destruct (e_degree d) as [x|]; [|right; intros (? & ? & ? & _); discriminate].
    destruct (e_degree kw) as [y|]; [|right; intros (? & ? & _ & ? & _); discriminate].
    destruct (Nat.eq_dec x y) as [->|N]; [right; intros (? & ? & Ex & Ey & N); congruence | left; exists x, y; auto]. }
  destruct first as [(x & y & Hx & Hy & N)|Nd].
  - exists w2. split; [|rewrite M2; exact M1].
    rewrite (unf _ (bad Degree w2 d og x y Hdk Hok Hx Hy N)); [reflexivity|]. intros w3. discriminate.
  - destruct Hc as [Hc|(x & y & Hx & Hy & N)]; [contradiction|].
    destruct (agree_spec dk ok kw Degree w2 d og Hdk Hok) as (w3 & E3 & M3 & LD3 & LO3 & Hd3 & Ho3 & _).
    { intros a b Ha Hb. destruct (Nat.eq_dec a b) as [|Nab]; [assumption|]. exfalso. apply Nd. exists a, b. auto. }
    exists w3. split; [|rewrite M3, M2; exact M1].
    cbn [step]. unfold new_method, cbind. rewrite E1, E2. cbn [outcome cret].
    rewrite (lookup_ok _ _ _ _ Hok), E3. erewrite (bad Elements w3 _ _ x y Hd3 Ho3); [reflexivity| | exact Hy|exact N].
    destruct d. exact Hx.
Qed.

(** The multipliers fit the solver if the dictionary asks for nothing else. *)
Lemma fits d og : chosen d og = og <->
  (e_degree d = None \/ e_degree d = Some (g_degree og)) /\ (e_elements d = None \/ e_elements d = Some (g_elements og)).
Proof.
  destruct d as [x y], og as [a b]. unfold chosen. cbn [e_degree e_elements g_degree g_elements]. split.
  - intros H. injection H as H1 H2. destruct x, y; cbn [either] in H1, H2; subst; auto.
  - intros [[-> | ->] [-> | ->]]; reflexivity.
Qed.

(** ** The nodes of a network *)
Lemma nodes_made dk own n : forall w d, nth_error (w_dicts w) dk = Some d ->
  exists w', step (ANodes dk own (repeat (None, None) n)) w = (w', Ok tt) /\
    length (w_methods w') = length (w_methods w) + n /\
    (forall j s, seen_at w j = Some s -> seen_at w' j = Some s) /\
    (forall j, length (w_methods w) <= j < length (w_methods w) + n ->
       seen_at w' j = Some (mkSeen (chosen d own) own (chosen d own))).
Proof.
  cbn [step]. unfold create_nodes. induction n as [|n IH]; intros w d Hd.
  - exists w. cbn. repeat split; auto; lia.
  - cbn [repeat run_all].
    assert (Hown : options_given w (ONew (mkEntries (Some (g_degree own)) (Some (g_elements own)))) = Some own)
      by (destruct own; reflexivity).
    assert (Hn : ~ conflict d (mkEntries None None)) by (intros [(? & ? & _ & E & _)|(? & ? & _ & E & _)]; discriminate).
    destruct (constructed w (DNamed dk) _ (mkEntries None None) d own Hd Hown Hn) as (w1 & E & L & S1 & S2 & Dk).
    cbn [step] in E. unfold node_method at 1. cbn [fst snd]. unfold cbind in E.
    destruct (new_method (DNamed dk) (ONew (mkEntries (Some (g_degree own)) (Some (g_elements own)))) (mkEntries None None) None None w)
      as [w1' [v|e]]; [|discriminate]. cbn [cret] in E. injection E as ->.
    assert (Hd1 : nth_error (w_dicts w1) dk = Some (both (chosen d own))) by (rewrite (Dk dk d Hd), Nat.eqb_refl; reflexivity).
    destruct (IH w1 _ Hd1) as (w' & E' & L' & F & N). exists w'. split; [exact E'|]. split; [lia|]. split.
    + intros j s Hj. apply F. rewrite (S2 j s Hj). unfold shares. cbn [named_options].
      destruct (nth_error (w_methods w) j); destruct s; reflexivity.
    + assert (C : chosen (both (chosen d own)) own = chosen d own) by (destruct d, own; reflexivity). rewrite C in N.
      intros j Hj. destruct (Nat.eq_dec j (length (w_methods w))) as [->|Nj]; [apply F; exact S1|]. apply N. lia.
Qed.

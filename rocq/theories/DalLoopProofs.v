(** Proofs about the values nodes receive and about the iterations. *)
From Coq Require Import String Permutation Lqa.
From Verif Require Import Base UtilModel ExprModel SysModel NlpModel DiscModel ResModel NetModel BaseProofs.
From Verif Require Import DalModel DalSpec DalProofs.
Local Open Scope list_scope.

(** ** What a node receives *)

Lemma pick_one : forall (v : list Q) i w, pick v [i] = Ok w -> w = [nth i v 0%Q].
Proof.
  intros v i w. unfold pick. simpl. destruct (nth_error v i) as [a|] eqn:E; [|discriminate].
  intros H; injection H as <-. rewrite (nth_error_nth v i 0%Q E). reflexivity.
Qed.
Lemma res_map_Forall2 {A B : Type} : forall (f : A -> res B) l r, res_map f l = Ok r -> Forall2 (fun a b => f a = Ok b) l r.
Proof. intros. apply res_map_F2. assumption. Qed.

Lemma picked : forall (d : list (list (list Q))) i v,
  res_map (fun el => res_map (fun w => pick w [i]) el) d = Ok v ->
  v = map (map (fun w => [nth i w 0%Q])) d.
Proof.
  intros d i v H. apply res_map_F2 in H. induction H as [|el v0 d v H _ IH]; [reflexivity|].
  simpl. rewrite IH. f_equal. apply res_map_F2 in H. clear - H. induction H as [|w q el v0 H _ IH]; [reflexivity|].
  simpl. rewrite IH. f_equal. apply pick_one. exact H.
Qed.
Lemma concat_singletons : forall (f : list Q -> Q) l, concat (map (fun w => [f w]) l) = map f l.
Proof. intros f l. induction l; simpl; [reflexivity|]. rewrite IHl. reflexivity. Qed.
Lemma concat_repeat_one : forall (q : Q) n, concat (repeat [q] n) = repeat q n.
Proof. intros q n. induction n; simpl; [reflexivity|]. rewrite IHn. reflexivity. Qed.
Lemma nth_repeat_lt {A : Type} : forall (a d : A) n i, i < n -> nth i (repeat a n) d = a.
Proof. intros a d n. induction n; intros [|i] H; simpl; try lia; [reflexivity|]. apply IHn. lia. Qed.

Lemma last_values_y : forall opts net last a i v el, last_values opts net last a "y" i = Ok v -> el < do_elements opts ->
  concat (nth el v []) = sent (do_degree opts) (dn_y_guess net a)
                              (option_map (fun r => w_y (nr_data r)) (result_of last a)) i el.
Proof.
  intros opts net last a i v el H Hel. unfold last_values in H. unfold result_of, sent.
  cbv zeta in H. destruct (dget Nat.eqb a last) as [r|].
  - unfold get_variable in H. cbn [String.eqb Ascii.eqb Bool.eqb] in H. apply picked in H. subst v. simpl option_map. cbv iota.
    destruct (Nat.lt_ge_cases el (length (w_y (nr_data r)))) as [L|L].
    + rewrite (nth_indep _ [] (map (fun w => [nth i w 0%Q]) [])) by (rewrite map_length; exact L).
      rewrite map_nth. apply concat_singletons.
    + rewrite !nth_overflow; [reflexivity|exact L|rewrite map_length; exact L].
  - cbn [String.eqb Ascii.eqb Bool.eqb] in H. simpl option_map. cbv iota.
    destruct (dn_y_guess net a) as [g|].
    + destruct (pick g [i]) as [q|] eqn:E; [|discriminate]. apply pick_one in E. subst q.
      injection H as <-. rewrite nth_repeat_lt by exact Hel. apply concat_repeat_one.
    + injection H as <-. rewrite nth_repeat_lt by exact Hel. apply concat_repeat_one.
Qed.
Lemma last_values_u : forall opts net last a i v el, last_values opts net last a "u" i = Ok v -> el < do_elements opts ->
  concat (nth el v []) = sent (do_degree opts) (dn_u_guess net a)
                              (option_map (fun r => w_u (nr_data r)) (result_of last a)) i el.
Proof.
  intros opts net last a i v el H Hel. unfold last_values in H. unfold result_of, sent.
  cbv zeta in H. destruct (dget Nat.eqb a last) as [r|].
  - unfold get_variable in H. cbn [String.eqb Ascii.eqb Bool.eqb] in H. apply picked in H. subst v. simpl option_map. cbv iota.
    destruct (Nat.lt_ge_cases el (length (w_u (nr_data r)))) as [L|L].
    + rewrite (nth_indep _ [] (map (fun w => [nth i w 0%Q]) [])) by (rewrite map_length; exact L).
      rewrite map_nth. apply concat_singletons.
    + rewrite !nth_overflow; [reflexivity|exact L|rewrite map_length; exact L].
  - cbn [String.eqb Ascii.eqb Bool.eqb] in H. simpl option_map. cbv iota.
    destruct (dn_u_guess net a) as [g|].
    + destruct (pick g [i]) as [q|] eqn:E; [|discriminate]. apply pick_one in E. subst q.
      injection H as <-. rewrite nth_repeat_lt by exact Hel. apply concat_repeat_one.
    + injection H as <-. rewrite nth_repeat_lt by exact Hel. apply concat_repeat_one.
Qed.

Definition theta_at (th : theta Q) (el : nat) : list Q := match dget Nat.eqb el th with Some v => v | None => [] end.

Lemma dget_indexed : forall (l : list (nat * list Q)) n s el, map fst l = seq s n -> s <= el < s + n ->
  exists v, nth_error l (el - s) = Some (el, v) /\ dget Nat.eqb el l = Some v.
Proof.
  induction l as [|[k w] l IH]; intros n s el H Hel.
  - destruct n; [lia|discriminate].
  - destruct n as [|n]; [discriminate|]. simpl in H. injection H as -> H.
    destruct (Nat.eq_dec el s) as [->|N].
    + exists w. replace (s - s) with 0 by lia. simpl. rewrite Nat.eqb_refl. split; reflexivity.
    + destruct (IH n (S s) el H) as [v [E1 E2]]; [lia|].
      exists v. replace (el - s) with (S (el - S s)) by lia. simpl.
      destruct (Nat.eqb_spec el s); [contradiction|]. split; assumption.
Qed.

Lemma Forall2_at {A B : Type} : forall (R : A -> B -> Prop) l r k a b, Forall2 R l r ->
  nth_error l k = Some a -> nth_error r k = Some b -> R a b.
Proof.
  intros R l r k a b H. revert k. induction H as [|x y l r H _ IH]; intros k H1 H2; [destruct k; discriminate|].
  destruct k as [|k]; simpl in *; [injection H1 as <-; injection H2 as <-; exact H|]. exact (IH k H1 H2).
Qed.
Lemma extend_theta_spec : forall els th v th', extend_theta els th v = Ok th' ->
  map fst th' = seq 0 els /\ forall el, el < els -> theta_at th' el = theta_at th el ++ concat (nth el v []).
Proof.
  intros els th v th' H. unfold extend_theta in H. apply res_map_F2 in H.
  assert (K : map fst th' = seq 0 els).
  { clear - H. induction H as [|i kv l r H _ IH]; [reflexivity|]. simpl. rewrite IH.
    destruct (at_index v i IndexError); [|discriminate]. injection H as <-. reflexivity. }
  split; [exact K|]. intros el Hel.
  destruct (dget_indexed th' els 0 el K) as [w [E1 E2]]; [lia|]. rewrite Nat.sub_0_r in E1.
  unfold theta_at at 1. rewrite E2.
  assert (E : (match at_index v el IndexError with
               | Raise e => Raise e
               | Ok l => Ok (el, match dget Nat.eqb el th with Some w => w | None => [] end ++ concat l) end) = Ok (el, w)).
  { assert (Hs : nth_error (seq 0 els) el = Some el).
    { rewrite (nth_error_nth' _ 0) by (rewrite seq_length; exact Hel). rewrite seq_nth by exact Hel. reflexivity. }
    exact (Forall2_at _ _ _ _ _ _ H Hs E1). }
  unfold at_index in E. destruct (nth_error v el) as [l|] eqn:En; [|discriminate].
  injection E as <-. rewrite (nth_error_nth v el [] En). reflexivity.
Qed.

Lemma extend_all_spec : forall els l th th', extend_all els th l = Ok th' ->
  (th' = th /\ l = [] \/ map fst th' = seq 0 els) /\
  exists vs, l = map Ok vs /\
    forall el, el < els -> theta_at th' el = theta_at th el ++ flat_map (fun v => concat (nth el v [])) vs.
Proof.
  intros els l. induction l as [|[v|e] l IH]; intros th th' H; simpl in H; [| |discriminate].
  - injection H as <-. split; [left; split; reflexivity|]. exists []. split; [reflexivity|].
    intros el _. simpl. rewrite app_nil_r. reflexivity.
  - destruct (extend_theta els th v) as [th1|] eqn:E; [|discriminate].
    destruct (extend_theta_spec _ _ _ _ E) as [K1 V1].
    destruct (IH th1 th' H) as [K2 [vs [-> V2]]]. split.
    + right. destruct K2 as [[-> _]|K2]; assumption.
    + exists (v :: vs). split; [reflexivity|]. intros el Hel. rewrite V2, V1 by exact Hel.
      simpl. rewrite app_assoc. reflexivity.
Qed.

Lemma map_Ok_inj_app {A : Type} : forall (a b : list (res A)) vs, a ++ b = map Ok vs ->
  exists v1 v2, a = map Ok v1 /\ b = map Ok v2 /\ vs = v1 ++ v2.
Proof.
  intros a. induction a as [|x a IH]; intros b vs H; simpl in H.
  - exists [], vs. repeat split. exact H.
  - destruct vs as [|v vs]; [discriminate|]. simpl in H. injection H as -> H.
    destruct (IH _ _ H) as [v1 [v2 [-> [-> ->]]]]. exists (v :: v1), v2. repeat split.
Qed.

Lemma parts_sent {A B : Type} : forall (f : A -> list (res values)) (g : values -> list B) (h : A -> list B) l vs,
  (forall a v1, In a l -> f a = map Ok v1 -> flat_map g v1 = h a) ->
  flat_map f l = map Ok vs -> flat_map g vs = flat_map h l.
Proof.
  intros f g h l. induction l as [|a l IH]; intros vs Hf H; simpl in H.
  - destruct vs; [reflexivity|discriminate].
  - apply map_Ok_inj_app in H. destruct H as [v1 [v2 [H1 [H2 ->]]]]. rewrite flat_map_app. simpl.
    rewrite (Hf a v1 (or_introl eq_refl) H1). rewrite (IH v2); [reflexivity| |exact H2].
    intros b w Hb. apply Hf. right. exact Hb.
Qed.
Lemma map_sent {A B : Type} : forall (f : A -> res values) (g : values -> list B) (h : A -> list B) l vs,
  (forall a v, In a l -> f a = Ok v -> g v = h a) -> map f l = map Ok vs -> flat_map g vs = flat_map h l.
Proof.
  intros f g h l. induction l as [|a l IH]; intros vs Hf H; destruct vs as [|v vs]; try discriminate; [reflexivity|].
  simpl in *. injection H as H1 H2. rewrite (Hf a v (or_introl eq_refl) H1). rewrite (IH vs); [reflexivity| |exact H2].
  intros b w Hb. apply Hf. right. exact Hb.
Qed.

Lemma node_theta_received : forall opts net last a th, node_theta opts net last a = Ok th ->
  (th = [] \/ map fst th = seq 0 (do_elements opts)) /\
  forall el, el < do_elements opts ->
    match dget Nat.eqb el th with Some v => v | None => [] end = received opts net last a el.
Proof.
  intros opts net last a th H. unfold node_theta in H. apply extend_all_spec in H.
  destruct H as [K [vs [E V]]]. split; [tauto|].
  intros el Hel. specialize (V el Hel). unfold theta_at in V. rewrite V. simpl.
  apply map_Ok_inj_app in E. destruct E as [v1 [v2 [E1 [E2 ->]]]]. rewrite flat_map_app. unfold received. f_equal.
  - apply (parts_sent _ _ _ _ _) with (2 := E1). intros pc w _ Hw. unfold from_pred in Hw.
    apply (map_sent _ _ _ _ _) with (2 := Hw). intros i v _ Hv. apply last_values_y; assumption.
  - apply (parts_sent _ _ _ _ _) with (2 := E2). intros pc w _ Hw. unfold from_succ in Hw.
    apply (map_sent _ _ _ _ _) with (2 := Hw). intros i v _ Hv. apply last_values_u; assumption.
Qed.

(** ** Iterations *)

Lemma total_sum : forall rd, (total rd == sum_of (map (fun ar => nr_objective (snd ar)) rd))%Q.
Proof.
  intros rd. unfold total.
  assert (G : forall rd q, (fold_left (fun acc (ar : addr * node_result) => (acc + nr_objective (snd ar))%Q) rd q ==
                            q + sum_of (map (fun ar => nr_objective (snd ar)) rd))%Q).
  { clear. induction rd as [|ar rd IH]; intros q; simpl; [ring|]. rewrite IH. ring. }
  rewrite G. ring.
Qed.

Lemma fold_max : forall l e, let m := fold_left (fun a b => if Qle_bool a b then b else a) l e in
  In m (e :: l) /\ forall x, In x (e :: l) -> (x <= m)%Q.
Proof.
  induction l as [|b l IH]; intros e m; subst m; simpl.
  - split; [left; reflexivity|]. intros x [<-|[]]. lra.
  - destruct (IH (if Qle_bool e b then b else e)) as [H1 H2]. simpl in H1, H2. split.
    + destruct H1 as [H1|H1]; [|right; right; exact H1]. rewrite <- H1. destruct (Qle_bool e b); auto.
    + assert (Hle : (e <= (if Qle_bool e b then b else e))%Q /\ (b <= (if Qle_bool e b then b else e))%Q).
      { destruct (Qle_bool e b) eqn:E; [apply Qle_bool_iff in E; split; lra|].
        assert (~ (e <= b)%Q) by (intros X; apply Qle_bool_iff in X; congruence). split; lra. }
      pose proof (H2 _ (or_introl eq_refl)) as H3.
      intros x [<-|[<-|Hx]]; [lra|lra|]. apply H2. right. exact Hx.
Qed.

Lemma max_error_spec : forall es m, max_error es = Ok m -> is_largest (concat (map snd es)) m.
Proof.
  intros es m H. unfold max_error, dvals in H. destruct (concat (map snd es)) as [|e [|e' l]] eqn:E; try discriminate.
  injection H as <-. apply (fold_max (e' :: l) e).
Qed.

Lemma inner_rule_more : forall tol n o os, (2 <= length (o :: os))%nat \/ n = 0%nat ->
  (length os <= n)%nat ->
  (forall k p p', nth_error (o :: os) k = Some p -> nth_error (o :: os) (k + 1) = Some p' ->
                  (k + 2 < length (o :: os))%nat -> (p' <= (1 - tol) * p)%Q) ->
  ((length os < n)%nat -> exists k p p', nth_error (o :: os) k = Some p /\ nth_error (o :: os) (k + 1) = Some p' /\
                                         (k + 2 = length (o :: os))%nat /\ ((1 - tol) * p < p')%Q) ->
  inner_rule tol (S n) (o :: os).
Proof.
  intros tol n o os H0 H1 H2 H3. split; [simpl; lia|]. split; [exact H2|].
  intros H. apply H3. simpl in H. lia.
Qed.

Section Loops.
  Variable S : Type.
  Variable solve : addr -> S -> theta Q -> option (list Q) -> S * res node_result.
  Variable update : addr -> S -> theta Q -> list Q -> exogenous -> S * res (list Q).
  Variable primal_dual : addr -> S -> theta Q -> list Q -> exogenous -> S * res (Q * ext * list Q).
  Variable mu_of : S -> list Q.
  Variable set_mu : Q -> S -> S * res unit.
  Variable put_mu : list Q -> S -> S.
  Variables (opts : dal_options) (net : dnet) (blocks : dict nat (list addr)).
  Variable draw : nat -> list nat.
  Notation sweep := (sweep S solve opts net blocks draw).
  Notation inner_loop := (inner_loop S solve opts net blocks draw).
  Notation outer_loop := (outer_loop S solve update primal_dual mu_of set_mu put_mu opts net blocks draw).
  Notation upd := (update_parameters S update primal_dual mu_of set_mu put_mu opts net blocks).

  Lemma sweep_spec : forall l l' o, sweep l = (l', Ok o) ->
    d_last S (l_state S l') = l_results S l' /\ l_sweeps S l' = (l_sweeps S l + 1)%nat /\ o = total (l_results S l').
  Proof.
    intros l l' o H. unfold DalModel.sweep, cbind, cres in H.
    destruct (block_iterator opts blocks draw (l_sweeps S l)) as [bs|]; [|discriminate].
    unfold in_loop in H. destruct (solve_nodes S solve opts net bs (l_state S l)) as [s [new|]]; [|discriminate].
    unfold cmodify in H. injection H as <- <-. repeat split.
  Qed.

  Lemma inner_from : forall n q l l' os, (do_inner_tol opts <= 1)%Q -> inner_loop n (Fin q) l = (l', Ok os) ->
    (length os <= n)%nat /\
    (forall k p p', nth_error (q :: os) k = Some p -> nth_error (q :: os) (k + 1) = Some p' ->
                    (k + 2 < length (q :: os))%nat -> (p' <= (1 - do_inner_tol opts) * p)%Q) /\
    ((length os < n)%nat -> exists k p p', nth_error (q :: os) k = Some p /\ nth_error (q :: os) (k + 1) = Some p' /\
                                         (k + 2 = length (q :: os))%nat /\ ((1 - do_inner_tol opts) * p < p')%Q) /\
    (l_sweeps S l' = l_sweeps S l + length os)%nat /\
    (os <> [] -> d_last S (l_state S l') = l_results S l').
  Proof.
    induction n as [|n IH]; intros q l l' os Ht H; cbn [DalModel.inner_loop] in H.
    - unfold cret in H. injection H as <- <-. split; [simpl; lia|]. split; [|split; [simpl; lia|split; [simpl; lia|congruence]]].
      intros [|k] p p' _ H2; [discriminate|destruct k; discriminate].
    - unfold cbind in H. destruct (sweep l) as [l1 [o|e]] eqn:E1; [|discriminate].
      destruct (sweep_spec _ _ _ E1) as [A [B C]].
      destruct (no_decrease opts o (Fin q)) eqn:Ed.
      + unfold cret in H. injection H as <- <-. split; [simpl; lia|]. split; [|split; [|split; [simpl; lia|intros _; exact A]]].
        * intros k p p' _ _ Hk. simpl in Hk. lia.
        * intros _. exists 0%nat, q, o. repeat split. unfold no_decrease in Ed. apply Bool.negb_true_iff in Ed.
          apply Qnot_le_lt. intros X. apply Qle_bool_iff in X. congruence.
      + destruct (inner_loop n (Fin o) l1) as [l2 [os'|e]] eqn:E2; [|discriminate].
        unfold cret in H. injection H as <- <-.
        destruct (IH o l1 l2 os' Ht E2) as [I1 [I2 [I3 [I4 I5]]]].
        split; [simpl; lia|]. split; [|split; [|split]].
        * intros [|k] p p' H1 H2 Hk.
          -- simpl in H1, H2. injection H1 as <-. injection H2 as <-.
             unfold no_decrease in Ed. apply Bool.negb_false_iff in Ed. apply Qle_bool_iff in Ed. exact Ed.
          -- simpl in H1, Hk. replace (Datatypes.S k + 1)%nat with (Datatypes.S (k + 1)) in H2 by lia. simpl in H2.
             apply (I2 k p p' H1 H2). simpl. lia.
        * intros Hk. simpl in Hk. destruct I3 as [k [p [p' [J1 [J2 [J3 J4]]]]]]; [lia|].
          exists (Datatypes.S k), p, p'. replace (Datatypes.S k + 1)%nat with (Datatypes.S (k + 1)) by lia.
          repeat split; try assumption. simpl in *. lia.
        * simpl. lia.
        * intros _. destruct os' as [|o' os']; [|apply I5; discriminate].
          destruct n as [|n]; cbn [DalModel.inner_loop] in E2; [unfold cret in E2; injection E2 as <-; exact A|].
          unfold cbind in E2. destruct (sweep l1) as [l3 [o3|e]]; [|discriminate].
          destruct (no_decrease opts o3 (Fin o)); [discriminate|].
          destruct (inner_loop n (Fin o3) l3) as [l4 [os4|e]]; discriminate.
  Qed.

  Lemma inner_spec : forall n l l' os, (do_inner_tol opts <= 1)%Q -> inner_loop n PInf l = (l', Ok os) ->
    inner_rule (do_inner_tol opts) n os /\ ((0 < n)%nat -> os <> []) /\
    (l_sweeps S l' = l_sweeps S l + length os)%nat /\
    (os <> [] -> d_last S (l_state S l') = l_results S l').
  Proof.
    intros [|n] l l' os Ht H; cbn [DalModel.inner_loop] in H.
    - unfold cret in H. injection H as <- <-. split; [|split; [lia|split; [simpl; lia|congruence]]].
      split; [simpl; lia|]. split; [|simpl; lia]. intros [|k] p p' H1; discriminate.
    - unfold cbind in H. destruct (sweep l) as [l1 [o|e]] eqn:E1; [|discriminate].
      destruct (sweep_spec _ _ _ E1) as [A [B C]].
      assert (Ed : no_decrease opts o PInf = false).
      { unfold no_decrease. apply Bool.negb_false_iff. apply Qle_bool_iff. lra. }
      rewrite Ed in H.
      destruct (inner_loop n (Fin o) l1) as [l2 [os'|e]] eqn:E2; [|discriminate].
      unfold cret in H. injection H as <- <-.
      destruct (inner_from n o l1 l2 os' Ht E2) as [I1 [I2 [I3 [I4 I5]]]].
      split; [|split; [discriminate|split; [simpl; lia|]]].
      + split; [simpl; lia|]. split; [exact I2|]. intros Hk. apply I3. simpl in Hk. lia.
      + intros _. destruct os' as [|o' os']; [|apply I5; discriminate].
        destruct n as [|n]; cbn [DalModel.inner_loop] in E2; [unfold cret in E2; injection E2 as <-; exact A|].
        unfold cbind in E2. destruct (sweep l1) as [l3 [o3|e]]; [|discriminate].
        destruct (no_decrease opts o3 (Fin o)); [discriminate|].
        destruct (inner_loop n (Fin o3) l3) as [l4 [os4|e]]; discriminate.
  Qed.

  (** *** Updates keep the results *)

  Definition same_last (s s' : dstate S) : Prop := d_last S s' = d_last S s.
  Lemma cbind_last {A B : Type} : forall (c : cmd (dstate S) A) (k : A -> cmd (dstate S) B) s,
    same_last s (fst (c s)) -> (forall a s1, same_last s1 (fst (k a s1))) -> same_last s (fst (cbind c k s)).
  Proof.
    intros c k s H1 H2. unfold cbind. destruct (c s) as [s1 [a|e]] eqn:E; simpl in *; [|exact H1].
    unfold same_last in *. rewrite H2. exact H1.
  Qed.
  Lemma on_node_last {A : Type} : forall a (c : S -> S * res A) s, same_last s (fst (on_node S a c s)).
  Proof. intros a c s. unfold on_node, same_last. destruct (c (d_method S s a)); reflexivity. Qed.
  Lemma same_last_refl : forall s, same_last s s. Proof. reflexivity. Qed.
  Lemma crun_last {O : Type} : forall (f : O -> cmd (dstate S) unit) l,
    (forall o s, same_last s (fst (f o s))) -> forall s, same_last s (fst (crun f l s)).
  Proof.
    intros f l H. induction l as [|o l IH]; intros s; simpl; [apply same_last_refl|].
    apply cbind_last; [apply H|]. intros _ s1. apply IH.
  Qed.
  Lemma update_nodes_last : forall rd s, same_last s (fst (update_nodes S update opts net blocks rd s)).
  Proof.
    induction rd as [|[a r] rd IH]; intros s; simpl; [apply same_last_refl|].
    apply cbind_last.
    - unfold update_node. apply cbind_last; [apply same_last_refl|]. intros th s1.
      apply cbind_last; [apply same_last_refl|]. intros ex s2. apply on_node_last.
    - intros e s1. apply cbind_last; [apply IH|]. intros es s2. apply same_last_refl.
  Qed.
  Lemma all_residuals_last : forall rd s, same_last s (fst (all_residuals S primal_dual opts net blocks rd s)).
  Proof.
    induction rd as [|[a r] rd IH]; intros s; simpl; [apply same_last_refl|].
    apply cbind_last.
    - unfold residuals_of. apply cbind_last; [apply same_last_refl|]. intros th s1.
      apply cbind_last; [apply same_last_refl|]. intros ex s2. apply on_node_last.
    - intros e s1. apply cbind_last; [apply IH|]. intros es s2. apply same_last_refl.
  Qed.
  Lemma update_last : forall proxies rd s, same_last s (fst (upd proxies rd s)).
  Proof.
    intros proxies rd s.
    assert (PD : forall has missing rd s, same_last s (fst (update_primal_dual S primal_dual mu_of set_mu opts net blocks has missing rd s))).
    { clear. intros has missing rd s. unfold update_primal_dual.
      apply cbind_last; [apply same_last_refl|]. intros mus s1.
      apply cbind_last; [apply all_residuals_last|]. intros rs s2.
      destruct mus as [|mu mus']; [apply same_last_refl|].
      destruct (negb _); [apply same_last_refl|].
      apply cbind_last; [apply same_last_refl|]. intros mu' s3.
      apply cbind_last; [|intros _ s4; apply same_last_refl].
      apply crun_last. intros o s4. apply on_node_last. }
    unfold DalModel.update_parameters, update_distributed, update_serial.
    destruct (do_distributed opts); destruct (String.eqb (do_rule opts) "primal-dual"); try apply PD.
    - apply cbind_last; [apply update_nodes_last|]. intros es s1.
      apply cbind_last; [|intros _ s2; apply same_last_refl].
      unfold sync_mu, same_last. destruct (largest_mu _); reflexivity.
    - apply update_nodes_last.
  Qed.

  Lemma outer_spec : forall n k es0 l l' h es, (do_inner_tol opts <= 1)%Q ->
    outer_loop n k es0 l = (l', Ok (h, es)) ->
    outer_rule (do_abs_tol opts) n (map snd h) /\
    (forall j os m, nth_error h j = Some (os, m) ->
       inner_rule (do_inner_tol opts) (sweeps_allowed opts (k + j)) os /\
       ((0 < sweeps_allowed opts (k + j))%nat -> os <> [])) /\
    (l_sweeps S l' = l_sweeps S l + list_sum (map (fun om => length (fst om)) h))%nat /\
    (h = [] -> es = es0) /\
    (forall h' os m, h = h' ++ [(os, m)] -> is_largest (concat (map snd es)) m) /\
    (d_last S (l_state S l) = l_results S l -> d_last S (l_state S l') = l_results S l') /\
    ((exists os m, In (os, m) h /\ os <> []) -> d_last S (l_state S l') = l_results S l').
  Proof.
    induction n as [|n IH]; intros k es0 l l' h es Ht H; simpl in H.
    - unfold cret in H. assert (l' = l) by congruence. assert (h = []) by congruence. assert (es = es0) by congruence. subst.
      split; [|split; [|split; [|split; [|split; [|split]]]]].
      + split; [simpl; lia|]. split; [|simpl; lia]. intros [|j] m H1; discriminate.
      + intros [|j] os m H1; discriminate.
      + simpl. lia.
      + reflexivity.
      + intros [|x h'] os m E; discriminate.
      + tauto.
      + intros [os [m [[] _]]].
    - unfold cbind at 1 in H. destruct (inner_loop (inner_iterations opts k) PInf l) as [l1 [os|e]] eqn:E1; [|discriminate].
      destruct (inner_spec _ _ _ _ Ht E1) as [I1 [I2 [I3 I4]]].
      assert (Hal : inner_iterations opts k = sweeps_allowed opts k).
      { unfold inner_iterations, sweeps_allowed. destruct k; simpl; [|reflexivity].
        destruct (do_inner_first opts); lia. }
      rewrite Hal in I1, I2.
      unfold cbind at 1 in H.
      destruct (in_loop S (upd (l_proxies S l1) (l_results S l1)) l1) as [l2 [es1|e]] eqn:E2; [|discriminate].
      assert (L2 : d_last S (l_state S l2) = d_last S (l_state S l1) /\ l_results S l2 = l_results S l1 /\
                   l_sweeps S l2 = l_sweeps S l1).
      { unfold in_loop in E2. pose proof (update_last (l_proxies S l1) (l_results S l1) (l_state S l1)) as U.
        destruct (upd (l_proxies S l1) (l_results S l1) (l_state S l1)) as [s2 r2]. simpl in U.
        assert (l2 = mkLoop S s2 (l_results S l1) (l_sweeps S l1) (l_proxies S l1)) by congruence. subst l2.
        repeat split. exact U. }
      destruct L2 as [L2a [L2b L2c]].
      assert (Hl0 : d_last S (l_state S l) = l_results S l -> d_last S (l_state S l2) = l_results S l2).
      { intros H0. rewrite L2a, L2b. destruct os as [|o os]; [|apply I4; discriminate].
        destruct (inner_iterations opts k) as [|n0]; simpl in E1; [unfold cret in E1; assert (l1 = l) by congruence; subst; exact H0|].
        exfalso. rewrite <- Hal in I2. apply I2; [lia|reflexivity]. }
      unfold cbind at 1, cres in H. destruct (max_error es1) as [m|e] eqn:Em; [|discriminate].
      pose proof (max_error_spec _ _ Em) as Hm.
      destruct (Qle_bool (do_abs_tol opts) m) eqn:Eq; cbv [negb] in H.
      + unfold cbind in H; cbv beta iota in H. destruct (outer_loop n (k + 1) es1 l2) as [l3 [[h' es']|e]] eqn:E3; [|discriminate].
        unfold cret in H. simpl fst in H. simpl snd in H.
        assert (l3 = l') by congruence. assert (h = (os, m) :: h') by congruence. assert (es' = es) by congruence. subst l3 h es'. clear H.
        destruct (IH _ _ _ _ _ _ Ht E3) as [J1 [J2 [J3 [J4 [J5 [J6 J7]]]]]].
        apply Qle_bool_iff in Eq.
        split; [|split; [|split; [|split; [|split; [|split]]]]].
        * destruct J1 as [K1 [K2 K3]]. split; [simpl; lia|]. split.
          -- intros [|j] q Hq Hj; simpl in Hq, Hj; [injection Hq as <-; exact Eq|]. apply (K2 j q Hq). lia.
          -- intros Hj. simpl in Hj. destruct K3 as [j [q [Q1 [Q2 Q3]]]]; [lia|]. exists (Datatypes.S j), q. simpl.
             repeat split; try assumption. lia.
        * intros [|j] os' m' Hj; simpl in Hj.
          -- assert (os' = os) by congruence. subst os'. rewrite Nat.add_0_r. split; assumption.
          -- replace (k + Datatypes.S j)%nat with (k + 1 + j)%nat by lia. apply (J2 j os' m' Hj).
        * simpl. lia.
        * discriminate.
        * intros [|x h0] os' m' E; simpl in E.
          -- injection E as -> -> ->. rewrite (J4 eq_refl). exact Hm.
          -- assert (h' = h0 ++ [(os', m')]) by congruence. subst h'. apply (J5 _ _ _ eq_refl).
        * intros H0. apply J6, Hl0, H0.
        * intros [os' [m' [[X|X] N]]].
          -- assert (os' = os) by congruence. subst os'. apply J6. rewrite L2a, L2b. apply I4. exact N.
          -- apply J7. exists os', m'. split; assumption.
      + unfold cret in H.
        assert (l2 = l') by congruence. assert (h = [(os, m)]) by congruence. assert (es1 = es) by congruence. subst l2 h es1. clear H.
        assert (Hlt : (m < do_abs_tol opts)%Q).
        { apply Qnot_le_lt. intros X. apply Qle_bool_iff in X. congruence. }
        split; [|split; [|split; [|split; [|split; [|split]]]]].
        * split; [simpl; lia|]. split.
          -- intros j q _ Hj. simpl in Hj. lia.
          -- intros _. exists 0%nat, m. repeat split. exact Hlt.
        * intros [|j] os' m' Hj; simpl in Hj; [|destruct j; discriminate].
          assert (os' = os) by congruence. subst os'. rewrite Nat.add_0_r. split; assumption.
        * simpl. lia.
        * discriminate.
        * intros [|x h0] os' m' E; simpl in E.
          -- injection E as -> ->. exact Hm.
          -- destruct h0; discriminate.
        * exact Hl0.
        * intros [os' [m' [[X|[]] N]]]. assert (os' = os) by congruence. subst os'. rewrite L2a, L2b. apply I4. exact N.
  Qed.
End Loops.

(** Proofs about the lines of a plot. *)
From Coq Require Import String.
From Verif Require Import Base BaseProofs ExprModel DataModel DiscModel ColEvalProofs ResModel AlrProofs PloModel PloSpec.
Local Open Scope list_scope.
Local Open Scope nat_scope.

Lemma position_iff : forall n i r, position n i = Some r <-> stands_for n i r.
Proof.
  intros n i r. unfold position, stands_for. split.
  - destruct ((0 <=? i) && (i <? Z.of_nat n))%Z eqn:E.
    + apply andb_true_iff in E. destruct E as [E1 E2]. apply Z.leb_le in E1. apply Z.ltb_lt in E2. intros H. injection H as <-. split; [lia|]. left. lia.
    + destruct ((- Z.of_nat n <=? i) && (i <? 0))%Z eqn:E'; [|discriminate].
      apply andb_true_iff in E'. destruct E' as [E1 E2]. apply Z.leb_le in E1. apply Z.ltb_lt in E2. intros H. injection H as <-. split; [lia|]. right. lia.
  - intros [H [-> | ->]].
    + replace ((0 <=? Z.of_nat r) && (Z.of_nat r <? Z.of_nat n))%Z with true; [f_equal; lia|].
      symmetry. apply andb_true_iff. split; [apply Z.leb_le|apply Z.ltb_lt]; lia.
    + replace ((0 <=? Z.of_nat r - Z.of_nat n) && (Z.of_nat r - Z.of_nat n <? Z.of_nat n))%Z with false.
      2:{ symmetry. apply andb_false_iff. left. apply Z.leb_gt. lia. }
      replace ((- Z.of_nat n <=? Z.of_nat r - Z.of_nat n) && (Z.of_nat r - Z.of_nat n <? 0))%Z with true; [f_equal; lia|].
      symmetry. apply andb_true_iff. split; [apply Z.leb_le|apply Z.ltb_lt]; lia.
Qed.
Lemma index_iff : forall names s r, index_of s names = Some r <-> first_at names s r.
Proof.
  unfold first_at. induction names as [|n l IH]; intros s r; cbn [index_of].
  - split; [discriminate|]. intros [H _]. destruct r; discriminate.
  - destruct (String.eqb n s) eqn:E; rewrite ?(String.eqb_sym s n), ?E.
    + apply String.eqb_eq in E. subst n. split.
      * intros H. injection H as <-. split; [reflexivity|intros []].
      * intros [H1 H2]. destruct r as [|r]; [reflexivity|]. cbn in H2. destruct H2. left. reflexivity.
    + apply String.eqb_neq in E. split.
      * destruct (index_of s l) as [i|] eqn:Ei; [|discriminate]. intros H. injection H as <-. apply IH in Ei. destruct Ei as [E1 E2].
        split; [exact E1|]. cbn. intros [C|C]; [apply E; exact C|exact (E2 C)].
      * intros [H1 H2]. destruct r as [|r]; [cbn in H1; congruence|]. cbn in H1, H2.
        assert (Ei : index_of s l = Some r) by (apply IH; split; [exact H1|intros C; apply H2; right; exact C]). rewrite Ei. reflexivity.
Qed.
Lemma index_some : forall names s, In s names -> exists r, index_of s names = Some r.
Proof.
  induction names as [|n l IH]; intros s H; [destruct H|]. cbn [index_of]. destruct (String.eqb s n) eqn:E; [eexists; reflexivity|].
  destruct H as [-> | H]; [rewrite String.eqb_refl in E; discriminate|]. destruct (IH s H) as [r ->]. eexists. reflexivity.
Qed.
Lemma first_in : forall names s r, first_at names s r -> In s names.
Proof. intros names s r [H _]. exact (nth_error_In _ _ H). Qed.
Lemma first_exists : forall names s, In s names -> exists r, first_at names s r.
Proof. intros names s H. destruct (index_some names s H) as [r E]. exists r. apply index_iff. exact E. Qed.
Lemma first_less : forall names s r, first_at names s r -> r < length names.
Proof. intros names s r [H _]. apply nth_error_Some. congruence. Qed.

(** ** Matching *)

Section Plot.
  Variable re : string -> string -> res bool.

  Lemma matching_ok : forall p names ms, matching re p names = Ok ms ->
      (forall n, In n ms <-> In n names /\ re p n = Ok true) /\ (forall n, In n names -> exists b, re p n = Ok b).
  Proof.
    intros p. induction names as [|n l IH]; intros ms H; cbn [matching] in H.
    - injection H as <-. split; [intros n; cbn; tauto|intros n []].
    - destruct (re p n) as [b|x] eqn:E; [|discriminate]. destruct (matching re p l) as [ms'|x] eqn:E'; [|discriminate].
      injection H as <-. destruct (IH _ eq_refl) as [I1 I2]. split.
      + intros m. destruct b; cbn [In]; rewrite I1.
        * split; [intros [-> | [A B]]; [tauto|tauto]|]. intros [[-> | A] B]; tauto.
        * split; [intros [A B]; tauto|]. intros [[-> | A] B]; [congruence|tauto].
      + intros m [-> | Hm]; [exists b; exact E|exact (I2 m Hm)].
  Qed.
  Lemma matching_defined : forall p names, (forall n, In n names -> exists b, re p n = Ok b) -> exists ms, matching re p names = Ok ms.
  Proof.
    intros p. induction names as [|n l IH]; intros H; cbn [matching]; [eexists; reflexivity|].
    destruct (H n (or_introl eq_refl)) as [b ->]. destruct IH as [ms ->]; [intros m Hm; apply H; right; exact Hm|]. eexists. reflexivity.
  Qed.
  Lemma matching_none : forall p names, matching re p names = Ok [] -> no_pattern re names p.
  Proof.
    intros p names H n Hn. destruct (matching_ok _ _ _ H) as [M D]. destruct (D n Hn) as [[|] E]; [|exact E].
    destruct (proj2 (M n) (conj Hn E)).
  Qed.
  Lemma matching_some : forall p names m ms, matching re p names = Ok (m :: ms) -> ~ no_pattern re names p.
  Proof.
    intros p names m ms H N. destruct (matching_ok _ _ _ H) as [M _]. destruct (proj1 (M m) (or_introl eq_refl)) as [I E].
    rewrite (N m I) in E. discriminate.
  Qed.

  (** Texts that stay in the list. *)
  Definition stays (names : list string) (a : item) : bool :=
    match a with Index _ => true | Text p => match matching re p names with Ok [] => true | _ => false end end.
  Lemma remove_skips : forall p pre suf, ~ In (Text p) pre -> remove_text p (pre ++ Text p :: suf) = pre ++ suf.
  Proof.
    intros p. induction pre as [|a pre IH]; intros suf H; cbn [app remove_text].
    - rewrite String.eqb_refl. reflexivity.
    - destruct a as [i|s].
      + f_equal. apply IH. intros C. apply H. right. exact C.
      + destruct (String.eqb s p) eqn:E; [apply String.eqb_eq in E; subst s; destruct H; left; reflexivity|].
        f_equal. apply IH. intros C. apply H. right. exact C.
  Qed.
  Lemma match_all_ok : forall names copy pre fnd l' out,
      match_all re names copy fnd (filter (stays names) pre ++ copy) = (l', Ok out) ->
      l' = filter (stays names) (pre ++ copy) /\
      (forall n, In n out <-> In n fnd \/ exists p, In (Text p) copy /\ In n names /\ re p n = Ok true) /\
      (forall p n, In (Text p) copy -> In n names -> exists b, re p n = Ok b).
  Proof.
    intros names. induction copy as [|a copy IH]; intros pre fnd l' out H; cbn [match_all] in H.
    - unfold cret in H. injection H as <- <-. rewrite !app_nil_r. split; [reflexivity|]. split; [|intros p n []].
      intros n. split; [tauto|]. intros [A|[p [[] _]]]. exact A.
    - destruct a as [i|p].
      + specialize (IH (pre ++ [Index i]) fnd l' out). rewrite filter_app in IH. cbn [filter stays] in IH. rewrite <- !app_assoc in IH. cbn [app] in IH.
        destruct (IH H) as [I1 [I2 I3]]. split; [exact I1|]. split.
        * intros n. rewrite I2. split; (intros [A|[p [B C]]]; [left; exact A|right; exists p]); [split; [right; exact B|exact C]|].
          destruct B as [B|B]; [discriminate|]. split; [exact B|exact C].
        * intros p n [C|C]; [discriminate|]. exact (I3 p n C).
      + unfold cbind, cres in H. destruct (matching re p names) as [ms|x] eqn:Em; [|discriminate].
        destruct (matching_ok _ _ _ Em) as [M D].
        specialize (IH (pre ++ [Text p]) (fnd ++ ms) l' out). rewrite filter_app in IH. cbn [filter stays] in IH. rewrite Em in IH.
        rewrite <- !app_assoc in IH. cbn [app] in IH.
        destruct ms as [|m ms].
        * unfold cret in H. cbn [app] in IH. destruct (IH H) as [I1 [I2 I3]]. split; [exact I1|]. rewrite app_nil_r in I2. split.
          -- intros n. rewrite I2. split; (intros [A|[q [B C]]]; [left; exact A|]); [right; exists q; split; [right; exact B|exact C]|].
             destruct B as [B|B]; [|right; exists q; tauto]. injection B as <-. destruct (proj2 (M n) C).
          -- intros q n [C|C] Hn; [injection C as <-; exact (D n Hn)|exact (I3 q n C Hn)].
        * unfold cmodify in H. rewrite remove_skips in H.
          2:{ intros C. apply filter_In in C. destruct C as [_ C]. cbn [stays] in C. rewrite Em in C. discriminate. }
          destruct (IH H) as [I1 [I2 I3]]. split; [exact I1|]. split.
          -- intros n. rewrite I2, in_app_iff, M. split.
             ++ intros [[A|A]|[q [B C]]]; [left; exact A|right; exists p; split; [left; reflexivity|exact A]|right; exists q; split; [right; exact B|exact C]].
             ++ intros [A|[q [[B|B] C]]]; [tauto| |right; exists q; tauto]. injection B as <-. tauto.
          -- intros q n [C|C] Hn; [injection C as <-; exact (D n Hn)|exact (I3 q n C Hn)].
  Qed.
  Lemma match_all_defined : forall names copy pre fnd, (forall p n, In (Text p) copy -> In n names -> exists b, re p n = Ok b) ->
      exists l' out, match_all re names copy fnd (filter (stays names) pre ++ copy) = (l', Ok out).
  Proof.
    intros names. induction copy as [|a copy IH]; intros pre fnd H; cbn [match_all].
    - unfold cret. eexists _, _. reflexivity.
    - assert (H' : forall p n, In (Text p) copy -> In n names -> exists b, re p n = Ok b) by (intros p n A; apply H; right; exact A).
      destruct a as [i|p].
      + specialize (IH (pre ++ [Index i]) fnd H'). rewrite filter_app in IH. cbn [filter stays] in IH. rewrite <- !app_assoc in IH. exact IH.
      + destruct (matching_defined p names (fun n => H p n (or_introl eq_refl))) as [ms Em].
        unfold cbind, cres. rewrite Em. specialize (IH (pre ++ [Text p]) (fnd ++ ms) H'). rewrite filter_app in IH. cbn [filter stays] in IH. rewrite Em in IH.
        rewrite <- !app_assoc in IH. cbn [app] in IH. destruct ms as [|m ms]; [exact IH|]. unfold cmodify. rewrite remove_skips; [exact IH|].
        intros C. apply filter_In in C. destruct C as [_ C]. cbn [stays] in C. rewrite Em in C. discriminate.
  Qed.

  (** ** The rows of an entry *)

  (** The index [i] is in the list of rows to draw. *)
  Definition picked (exact : bool) (e : entry) (a : asked) (i : Z) : Prop :=
    match a with
    | Everything => exists n r, e_size e = Some n /\ r < n /\ i = Z.of_nat r
    | Chosen l => In (Index i) l \/ exists s r, In (Text s) l /\ names_row re exact (e_names e) s r /\ i = Z.of_nat r
    end.
  (** What is left of a request. *)
  Definition left_of (exact : bool) (e : entry) (a : asked) : asked :=
    match a with Everything => Everything | Chosen l => Chosen (if exact then l else filter (stays (e_names e)) l) end.

  Lemma in_indices : forall l i, In i (indices l) <-> In (Index i) l.
  Proof.
    intros l i. unfold indices. rewrite in_flat_map. split.
    - intros [[j|s] [A B]]; cbn in B; [destruct B as [-> | []]; exact A|destruct B].
    - intros H. exists (Index i). split; [exact H|left; reflexivity].
  Qed.
  Lemma in_texts : forall l s, In s (texts l) <-> In (Text s) l.
  Proof.
    intros l i. unfold texts. rewrite in_flat_map. split.
    - intros [[j|s] [A B]]; cbn in B; [destruct B|destruct B as [-> | []]; exact A].
    - intros H. exists (Text i). split; [exact H|left; reflexivity].
  Qed.
  Lemma position_of_name : forall names s i, name_position names s = Ok i <-> exists r, first_at names s r /\ i = Z.of_nat r.
  Proof.
    intros names s i. unfold name_position. destruct (index_of s names) as [r|] eqn:E.
    - split; [intros H; injection H as <-; exists r; split; [apply index_iff; exact E|reflexivity]|].
      intros [r' [H ->]]. apply index_iff in H. congruence.
    - split; [discriminate|]. intros [r' [H _]]. apply index_iff in H. congruence.
  Qed.
  Lemma res_map_in : forall {A B} (f : A -> res B) l bs, res_map f l = Ok bs ->
      (forall b, In b bs <-> exists a, In a l /\ f a = Ok b) /\ (forall a, In a l -> exists b, f a = Ok b).
  Proof.
    intros A B f l bs H. pose proof (res_map_ok _ _ _ _ _ H) as HR. clear H. induction HR as [|a b l bs Hab HR IH].
    - split; [intros b; split; [intros []|intros [a [[] _]]]|intros a []].
    - destruct IH as [I1 I2]. split.
      + intros c. cbn [In]. rewrite I1. split.
        * intros [-> | [d [D1 D2]]]; [exists a; tauto|exists d; tauto].
        * intros [d [[-> | D1] D2]]; [left; congruence|right; exists d; tauto].
      + intros c [-> | Hc]; [exists b; exact Hab|exact (I2 c Hc)].
  Qed.
  Lemma stays_text : forall names s, stays names (Text s) = true -> no_pattern re names s.
  Proof.
    intros names s H. cbn [stays] in H. destruct (matching re s names) as [[|m ms]|x] eqn:E; try discriminate. exact (matching_none _ _ E).
  Qed.
  Lemma text_stays : forall names s, no_pattern re names s -> stays names (Text s) = true.
  Proof.
    intros names s H. cbn [stays]. destruct (matching_defined s names) as [ms E]; [intros n Hn; exists false; exact (H n Hn)|].
    rewrite E. destruct ms as [|m ms]; [reflexivity|]. destruct (matching_some _ _ _ _ E H).
  Qed.

  Lemma rows_ok : forall exact e a a' is, rows_of re exact e a = (a', Ok is) ->
      a' = left_of exact e a /\ (forall i, In i is <-> picked exact e a i) /\
      (forall l s, a = Chosen l -> In (Text s) l -> exists r, names_row re exact (e_names e) s r) /\
      (exact = false -> defined re e a).
  Proof.
    intros exact e a a' is H. unfold rows_of in H. destruct a as [|l].
    - destruct (e_size e) as [n|] eqn:En; [|discriminate]. injection H as <- <-. split; [reflexivity|]. split; [|split; [discriminate|intros; exact I]].
      intros i. cbn [picked]. rewrite in_map_iff, En. split.
      + intros [r [<- Hr]]. apply in_seq in Hr. exists n, r. repeat split; lia.
      + intros [m [r [Em [Hr ->]]]]. injection Em as <-. exists r. split; [reflexivity|]. apply in_seq. lia.
    - destruct exact.
      + unfold cret in H. destruct (res_map (name_position (e_names e)) (texts l ++ [])) as [more|x] eqn:Em; [|discriminate].
        injection H as <- <-. rewrite app_nil_r in Em. destruct (res_map_in _ _ _ Em) as [M1 M2]. split; [reflexivity|]. split; [|split; [|discriminate]].
        * intros i. cbn [picked names_row]. rewrite in_app_iff, in_indices, M1. apply or_iff_compat_l. split.
          -- intros [s [A B]]. apply in_texts in A. apply position_of_name in B. destruct B as [r [B1 B2]]. exists s, r. tauto.
          -- intros [s [r [A [B C]]]]. exists s. split; [apply in_texts; exact A|]. apply position_of_name. exists r. tauto.
        * intros l0 s E Hs. injection E as <-. destruct (M2 s) as [i Hi]; [apply in_texts; exact Hs|].
          apply position_of_name in Hi. destruct Hi as [r [Hr _]]. exists r. exact Hr.
      + destruct (match_all re (e_names e) l [] l) as [l' [fnd|x]] eqn:Ea; [|discriminate].
        destruct (match_all_ok (e_names e) l [] [] l' fnd Ea) as [A1 [A2 A3]]. cbn [app] in A1.
        destruct (res_map (name_position (e_names e)) (texts l' ++ fnd)) as [more|x] eqn:Em; [|discriminate].
        injection H as <- <-. destruct (res_map_in _ _ _ Em) as [M1 M2]. split; [cbn [left_of]; rewrite A1; reflexivity|].
        assert (Hrow : forall s, In (Text s) l -> forall r, names_row re false (e_names e) s r -> exists t, In t (texts l' ++ fnd) /\ first_at (e_names e) t r).
        { intros s Hs r [[n [Hn Hf]]|[Hn Hf]].
          - exists n. split; [|exact Hf]. apply in_or_app. right. apply A2. right. exists s. split; [exact Hs|]. split; [exact (first_in _ _ _ Hf)|exact Hn].
          - exists s. split; [|exact Hf]. apply in_or_app. left. apply in_texts. rewrite A1. apply filter_In. split; [exact Hs|]. apply text_stays. exact Hn. }
        split; [|split].
        * intros i. cbn [picked]. rewrite in_app_iff, in_indices, M1. apply or_iff_compat_l. split.
          -- intros [t [A B]]. apply position_of_name in B. destruct B as [r [B1 B2]]. apply in_app_iff in A. destruct A as [A|A].
             ++ apply in_texts in A. rewrite A1 in A. apply filter_In in A. destruct A as [A A'].
                exists t, r. split; [exact A|]. split; [right; split; [exact (stays_text _ _ A')|exact B1]|exact B2].
             ++ apply A2 in A. destruct A as [[]|[p [P1 [P2 P3]]]]. exists p, r. split; [exact P1|]. split; [left; exists t; tauto|exact B2].
          -- intros [s [r [A [B ->]]]]. destruct (Hrow s A r B) as [t [T1 T2]]. exists t. split; [exact T1|]. apply position_of_name. exists r. tauto.
        * intros l0 s E Hs. injection E as <-. destruct (stays (e_names e) (Text s)) eqn:St.
          -- destruct (M2 s) as [i Hi]; [apply in_or_app; left; apply in_texts; rewrite A1; apply filter_In; tauto|].
             apply position_of_name in Hi. destruct Hi as [r [Hr _]]. exists r. right. split; [exact (stays_text _ _ St)|exact Hr].
          -- cbn [stays] in St. destruct (matching_defined s (e_names e) (fun n => A3 s n Hs)) as [ms Es]. rewrite Es in St.
             destruct ms as [|m ms]; [discriminate|]. destruct (proj1 (proj1 (matching_ok _ _ _ Es) m) (or_introl eq_refl)) as [Hm Hre].
             destruct (first_exists _ _ Hm) as [r Hr]. exists r. left. exists m. tauto.
        * intros _ s n Hs Hn. exact (A3 s n Hs Hn).
  Qed.
  Lemma rows_defined : forall exact e a, (exact = false -> defined re e a) ->
      match a with
      | Everything => e_size e <> None
      | Chosen l => forall s, In (Text s) l -> exists r, names_row re exact (e_names e) s r
      end -> exists is, rows_of re exact e a = (left_of exact e a, Ok is).
  Proof.
    intros exact e a D H. assert (G : exists a' is, rows_of re exact e a = (a', Ok is)).
    { unfold rows_of. destruct a as [|l].
      - destruct (e_size e) as [n|]; [|destruct H; reflexivity]. eexists _, _. reflexivity.
      - destruct exact.
        + unfold cret. rewrite app_nil_r. destruct (res_map_of _ _ (name_position (e_names e)) (texts l)) as [more ->].
          * intros s Hs. apply in_texts in Hs. destruct (H s Hs) as [r Hr]. exists (Z.of_nat r). apply position_of_name. exists r. split; [exact Hr|reflexivity].
          * eexists _, _. reflexivity.
        + destruct (match_all_defined (e_names e) l [] [] (fun p n => D eq_refl p n)) as [l' [fnd Ea]]. cbn [filter app] in Ea. rewrite Ea.
          destruct (match_all_ok (e_names e) l [] [] l' fnd Ea) as [A1 [A2 A3]]. cbn [app] in A1.
          destruct (res_map_of _ _ (name_position (e_names e)) (texts l' ++ fnd)) as [more ->]; [|eexists _, _; reflexivity].
          intros t Ht. apply in_app_iff in Ht. destruct Ht as [Ht|Ht].
          * apply in_texts in Ht. rewrite A1 in Ht. apply filter_In in Ht. destruct Ht as [H1 H2]. destruct (H t H1) as [r [[n [Hn Hf]]|[_ Hf]]].
            -- rewrite (stays_text _ _ H2 n (first_in _ _ _ Hf)) in Hn. discriminate.
            -- exists (Z.of_nat r). apply position_of_name. exists r. split; [exact Hf|reflexivity].
          * apply A2 in Ht. destruct Ht as [[]|[p [_ [Ht _]]]]. destruct (first_exists _ _ Ht) as [r Hr]. exists (Z.of_nat r). apply position_of_name. exists r.
            split; [exact Hr|reflexivity]. }
    destruct G as [a' [is G]]. exists is. rewrite G. destruct (rows_ok _ _ _ _ _ G) as [-> _]. reflexivity.
  Qed.
End Plot.

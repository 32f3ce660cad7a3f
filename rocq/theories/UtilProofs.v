(** Proofs about the vector, name, theta, timer and timeout helpers. *)
From Coq Require Import String Sorted Permutation.
From Verif Require Import Base BaseProofs UtilModel UtilSpec.

Section Vectors.
  Context {A : Type} (eqb : A -> A -> bool).
  Hypothesis eqb_eq : forall x y, eqb x y = true <-> x = y.

  Lemma find_indices_blocks : forall var vector,
      exists blocks : list (list nat),
        find_variables_indices_in_vector eqb var vector = concat blocks /\
        Forall2 (fun v blk => StronglySorted lt blk /\
                              forall i, In i blk <-> nth_error vector i = Some v)
                var blocks.
  Proof.
    intros var vector.
    exists (map (fun v => map fst (filter (fun iw => eqb (snd iw) v) (enumerate vector))) var).
    split; [unfold find_variables_indices_in_vector; apply flat_map_concat_map|].
    induction var as [|v var IH]; simpl; constructor; [|exact IH].
    split; [apply filter_combine_seq_sorted|].
    intros i. rewrite in_map_iff. split.
    - intros [[j w] [<- Hin]]. apply filter_In in Hin. destruct Hin as [Hin Hw].
      simpl in *. apply eqb_eq in Hw; subst. apply enumerate_In, Hin.
    - intros Hi. exists (i, v). split; [reflexivity|]. apply filter_In.
      split; [apply enumerate_In, Hi | simpl; apply eqb_eq; reflexivity].
  Qed.

  Lemma find_indices_In : forall var vector i,
      In i (find_variables_indices_in_vector eqb var vector) <->
      exists v, In v var /\ nth_error vector i = Some v.
  Proof.
    intros var vector i. unfold find_variables_indices_in_vector. rewrite in_flat_map.
    split.
    - intros [v [Hv Hi]]. exists v; split; [exact Hv|].
      apply in_map_iff in Hi. destruct Hi as [[j w] [<- Hin]].
      apply filter_In in Hin. destruct Hin as [Hin Hw]. simpl in *.
      apply eqb_eq in Hw; subst. apply enumerate_In, Hin.
    - intros [v [Hv Hi]]. exists v; split; [exact Hv|].
      apply in_map_iff. exists (i, v). split; [reflexivity|]. apply filter_In.
      split; [apply enumerate_In, Hi | simpl; apply eqb_eq; reflexivity].
  Qed.

  Lemma find_single : forall vector v k,
      NoDup vector -> In v vector ->
      exists i, nth_error vector i = Some v /\
        map fst (filter (fun iw => eqb (snd iw) v) (combine (seq k (length vector)) vector))
        = [k + i].
  Proof.
    intros vector; induction vector as [|a vector IH]; intros v k Hnd Hin; [contradiction|].
    inversion Hnd as [|? ? Hni Hnd']; subst. simpl.
    destruct (eqb a v) eqn:E.
    - apply eqb_eq in E; subst a. exists 0. split; [reflexivity|].
      simpl. rewrite Nat.add_0_r. f_equal.
      enough (Hempty : forall k, filter (fun iw : nat * A => eqb (snd iw) v)
                 (combine (seq k (length vector)) vector) = []) by (rewrite Hempty; reflexivity).
      clear -Hni eqb_eq. induction vector as [|b vector IH]; intros k; simpl; [reflexivity|].
      destruct (eqb b v) eqn:E.
      + apply eqb_eq in E; subst. exfalso; apply Hni; left; reflexivity.
      + apply IH. intros H; apply Hni; right; exact H.
    - destruct Hin as [->|Hin].
      + rewrite (proj2 (eqb_eq v v) eq_refl) in E; discriminate.
      + destruct (IH v (S k) Hnd' Hin) as [i [Hi Hm]].
        exists (S i). split; [exact Hi|]. rewrite Hm. f_equal. lia.
  Qed.

  Lemma find_indices_members : forall var vector,
      NoDup vector -> (forall v, In v var -> In v vector) ->
      map (nth_error vector) (find_variables_indices_in_vector eqb var vector) = map Some var.
  Proof.
    intros var vector Hnd. induction var as [|v var IH]; intros H; simpl; [reflexivity|].
    destruct (find_single vector v 0 Hnd (H v (or_introl eq_refl))) as [i [Hi Hm]].
    unfold enumerate at 1. rewrite Hm. simpl. rewrite Hi. f_equal.
    apply IH. intros w Hw; apply H; right; exact Hw.
  Qed.

  Lemma find_indices_members_length : forall var vector,
      NoDup vector -> (forall v, In v var -> In v vector) ->
      length (find_variables_indices_in_vector eqb var vector) = length var.
  Proof.
    intros var vector Hnd H.
    pose proof (find_indices_members var vector Hnd H) as E.
    apply (f_equal (@length _)) in E. rewrite !map_length in E. exact E.
  Qed.

  Lemma find_indices_empty : forall var vector,
      find_variables_indices_in_vector eqb var vector = [] <->
      (forall v, In v var -> ~ In v vector).
  Proof.
    intros var vector. split.
    - intros H v Hv Hin. apply In_nth_error in Hin. destruct Hin as [i Hi].
      assert (Hx : In i (find_variables_indices_in_vector eqb var vector))
        by (apply find_indices_In; exists v; split; assumption).
      rewrite H in Hx. exact Hx.
    - intros H. destruct (find_variables_indices_in_vector eqb var vector) as [|i l] eqn:E;
        [reflexivity|].
      assert (Hx : In i (find_variables_indices_in_vector eqb var vector))
        by (rewrite E; left; reflexivity).
      apply find_indices_In in Hx. destruct Hx as [v [Hv Hi]].
      exfalso. apply (H v Hv). eapply nth_error_In, Hi.
  Qed.
End Vectors.

Section Removal.
  Context {A : Type}.

  Lemma remove_by_indices_error : forall indices (vector : list A),
      (exists e, remove_variables_from_vector_by_indices indices vector = Raise e) <->
      (exists i, In i indices /\
         (i > Z.of_nat (length vector) \/ i < - Z.of_nat (length vector))%Z).
  Proof.
    intros indices vector. unfold remove_variables_from_vector_by_indices.
    destruct (existsb (fun i => Z.ltb (Z.of_nat (length vector)) i) indices) eqn:E1.
    - apply existsb_exists in E1. destruct E1 as [i [Hi Hlt]].
      split; [intros _; exists i; split; [exact Hi | lia] | intros _; eexists; reflexivity].
    - destruct (existsb (fun i => Z.ltb i (- Z.of_nat (length vector))) indices) eqn:E2.
      + apply existsb_exists in E2. destruct E2 as [i [Hi Hlt]].
        split; [intros _; exists i; split; [exact Hi | lia] | intros _; eexists; reflexivity].
      + rewrite existsb_false_iff in E1, E2.
        split; [intros [e H]; discriminate|].
        intros [i [Hi Hb]]. specialize (E1 i Hi). specialize (E2 i Hi).
        cbv beta in E1, E2. lia.
  Qed.

  Lemma remove_by_indices_value_error : forall indices (vector : list A) e,
      remove_variables_from_vector_by_indices indices vector = Raise e -> e = ValueError.
  Proof.
    intros indices vector e. unfold remove_variables_from_vector_by_indices.
    destruct (existsb _ indices); [intros H; injection H as <-; reflexivity|].
    destruct (existsb _ indices); [intros H; injection H as <-; reflexivity | discriminate].
  Qed.

  Lemma remove_by_indices_form : forall indices (vector r : list A),
      remove_variables_from_vector_by_indices indices vector = Ok r ->
      r = gather vector (filter (fun ind => negb (memb Z.eqb (Z.of_nat ind) indices))
                                (seq 0 (length vector))).
  Proof.
    intros indices vector r. unfold remove_variables_from_vector_by_indices.
    destruct (existsb _ indices); [discriminate|].
    destruct (existsb _ indices); [discriminate|].
    intros H; injection H as <-. reflexivity.
  Qed.

  Lemma remove_by_indices_kept : forall indices (vector r : list A),
      remove_variables_from_vector_by_indices indices vector = Ok r ->
      exists kept : list nat,
        StronglySorted lt kept /\
        (forall i, In i kept <-> (i < length vector)%nat /\ ~ In (Z.of_nat i) indices) /\
        map (nth_error vector) kept = map Some r.
  Proof.
    intros indices vector r H. apply remove_by_indices_form in H. subst r.
    exists (filter (fun ind => negb (memb Z.eqb (Z.of_nat ind) indices)) (seq 0 (length vector))).
    split; [apply filter_sorted, seq_sorted|]. split.
    - intros i. rewrite filter_In, in_seq, negb_true_iff.
      destruct (memb Z.eqb (Z.of_nat i) indices) eqn:E.
      + apply memb_Z in E. split; [intros [_ H]; discriminate | intros [_ H]; contradiction].
      + assert (Hn : ~ In (Z.of_nat i) indices)
          by (intros Hin; apply memb_Z in Hin; rewrite Hin in E; discriminate).
        split; intros [H1 _]; (split; [lia | try exact Hn; reflexivity]).
    - apply gather_in_range. intros i Hi. apply filter_In in Hi. destruct Hi as [Hi _].
      apply in_seq in Hi. lia.
  Qed.

  Lemma remove_by_indices_length : forall indices (vector r : list A),
      remove_variables_from_vector_by_indices indices vector = Ok r ->
      length r = length (filter (fun i => negb (memb Z.eqb (Z.of_nat i) indices))
                                (seq 0 (length vector))).
  Proof.
    intros indices vector r H. apply remove_by_indices_form in H. subst r.
    set (idx := filter _ _).
    assert (E : map (nth_error vector) idx = map Some (gather vector idx)).
    { apply gather_in_range. intros i Hi. unfold idx in Hi. apply filter_In in Hi.
      destruct Hi as [Hi _]. apply in_seq in Hi. lia. }
    apply (f_equal (@length _)) in E. rewrite !map_length in E. symmetry; exact E.
  Qed.

  (** Two calls agree when they list the same positions of the vector. *)
  Lemma remove_by_indices_ext : forall ind1 ind2 (vector r1 r2 : list A),
      (forall i, (i < length vector)%nat -> In (Z.of_nat i) ind1 <-> In (Z.of_nat i) ind2) ->
      remove_variables_from_vector_by_indices ind1 vector = Ok r1 ->
      remove_variables_from_vector_by_indices ind2 vector = Ok r2 ->
      r1 = r2.
  Proof.
    intros ind1 ind2 vector r1 r2 H H1 H2.
    apply remove_by_indices_form in H1. apply remove_by_indices_form in H2. subst.
    f_equal. apply filter_ext_in. intros i Hi. apply in_seq in Hi.
    assert (Hi' : (i < length vector)%nat) by lia. specialize (H i Hi').
    destruct (memb Z.eqb (Z.of_nat i) ind1) eqn:E1, (memb Z.eqb (Z.of_nat i) ind2) eqn:E2;
      try reflexivity.
    - apply memb_Z in E1. apply H in E1. apply memb_Z in E1. congruence.
    - apply memb_Z in E2. apply H in E2. apply memb_Z in E2. congruence.
  Qed.

  Lemma gather_seq_all : forall (l : list A), gather l (seq 0 (length l)) = l.
  Proof.
    intros l.
    pose proof (gather_filter_elements A (fun _ => true) (fun _ => true) l) as H.
    assert (Hs : forall (B : Type) (m : list B), filter (fun _ => true) m = m)
      by (induction m as [|b m IH]; simpl; [reflexivity | f_equal; exact IH]).
    rewrite !Hs in H. apply H. reflexivity.
  Qed.

  Lemma remove_by_indices_none : forall (vector : list A),
      remove_variables_from_vector_by_indices [] vector = Ok vector.
  Proof.
    intros vector. unfold remove_variables_from_vector_by_indices; simpl.
    f_equal. transitivity (gather vector (seq 0 (length vector))); [|apply gather_seq_all].
    f_equal. generalize (seq 0 (length vector)) as m.
    induction m as [|b m IH]; simpl; [reflexivity | f_equal; exact IH].
  Qed.

  (** Negative indices in range and the index equal to the length are accepted
      and have no effect. *)
  Lemma remove_by_indices_ignored : forall indices (vector : list A),
      (forall i, In i indices ->
         (- Z.of_nat (length vector) <= i < 0 \/ i = Z.of_nat (length vector))%Z) ->
      remove_variables_from_vector_by_indices indices vector = Ok vector.
  Proof.
    intros indices vector H.
    destruct (remove_variables_from_vector_by_indices indices vector) as [r|e] eqn:E.
    - f_equal. symmetry.
      eapply remove_by_indices_ext; [| apply remove_by_indices_none | exact E].
      intros i Hi. split; [intros [] | intros Hin]. specialize (H _ Hin). lia.
    - assert (He : exists e, remove_variables_from_vector_by_indices indices vector = Raise e)
        by (exists e; exact E).
      apply remove_by_indices_error in He. destruct He as [i [Hi Hb]].
      specialize (H i Hi). lia.
  Qed.
End Removal.

Section RemovalVars.
  Context {A : Type} (eqb : A -> A -> bool).
  Hypothesis eqb_eq : forall x y, eqb x y = true <-> x = y.

  Lemma remove_variables_ok : forall (var vector : list A),
      (exists v, In v var /\ In v vector) ->
      remove_variables_from_vector eqb var vector =
      Ok (filter (fun w => negb (memb eqb w var)) vector).
  Proof.
    intros var vector [v0 [Hv0 Hin0]]. unfold remove_variables_from_vector.
    destruct (find_variables_indices_in_vector eqb var vector) as [|i0 l0] eqn:E.
    - exfalso. eapply (proj1 (find_indices_empty eqb eqb_eq var vector) E); eassumption.
    - rewrite <- E.
      destruct (remove_variables_from_vector_by_indices
                  (map Z.of_nat (find_variables_indices_in_vector eqb var vector)) vector)
        as [r|e] eqn:Er.
      + f_equal. apply remove_by_indices_form in Er. subst r.
        apply gather_filter_elements. intros i w Hi. f_equal.
        destruct (memb eqb w var) eqn:Ew.
        * apply memb_Z. apply in_map. apply (find_indices_In eqb eqb_eq).
          exists w. split; [apply (memb_spec A eqb eqb_eq), Ew | exact Hi].
        * destruct (memb Z.eqb _ _) eqn:Em; [|reflexivity].
          apply memb_Z in Em. apply in_map_iff in Em. destruct Em as [j [Hj Hjin]].
          apply Nat2Z.inj in Hj. subst j. apply (find_indices_In eqb eqb_eq) in Hjin.
          destruct Hjin as [v [Hv Hiv]]. rewrite Hi in Hiv. injection Hiv as <-.
          apply (memb_spec A eqb eqb_eq) in Hv. congruence.
      + exfalso.
        assert (He : exists e, remove_variables_from_vector_by_indices
                   (map Z.of_nat (find_variables_indices_in_vector eqb var vector)) vector
                   = Raise e) by (exists e; exact Er).
        apply remove_by_indices_error in He. destruct He as [i [Hi Hb]].
        apply in_map_iff in Hi. destruct Hi as [j [<- Hj]].
        apply (find_indices_In eqb eqb_eq) in Hj. destruct Hj as [v [_ Hj]].
        assert (Hlt : (j < length vector)%nat) by (apply nth_error_Some; rewrite Hj; discriminate).
        lia.
  Qed.

  Lemma remove_variables_error : forall (var vector : list A),
      (forall v, In v var -> ~ In v vector) ->
      remove_variables_from_vector eqb var vector = Raise ValueError.
  Proof.
    intros var vector H. unfold remove_variables_from_vector.
    rewrite (proj2 (find_indices_empty eqb eqb_eq var vector) H). reflexivity.
  Qed.

  Lemma remove_variables_dec : forall (var vector : list A),
      (exists v, In v var /\ In v vector) \/ (forall v, In v var -> ~ In v vector).
  Proof.
    intros var vector. induction var as [|v var IH]; [right; intros v []|].
    destruct (memb eqb v vector) eqn:E.
    - left. exists v. split; [left; reflexivity | apply (memb_spec A eqb eqb_eq), E].
    - destruct IH as [[w [Hw1 Hw2]]|IH].
      + left; exists w; split; [right; exact Hw1 | exact Hw2].
      + right. intros w [<-|Hw]; [|apply IH, Hw].
        intros Hin. apply (memb_spec A eqb eqb_eq) in Hin. congruence.
  Qed.

  Lemma remove_variables_spec : forall (var vector : list A),
      ((forall v, In v var -> ~ In v vector) /\
       remove_variables_from_vector eqb var vector = Raise ValueError) \/
      ((exists v, In v var /\ In v vector) /\
       remove_variables_from_vector eqb var vector =
       Ok (filter (fun w => negb (memb eqb w var)) vector)).
  Proof.
    intros var vector. destruct (remove_variables_dec var vector) as [H|H].
    - right. split; [exact H | apply remove_variables_ok, H].
    - left. split; [exact H | apply remove_variables_error, H].
  Qed.

  Lemma remove_variables_content : forall var vector r,
      remove_variables_from_vector eqb var vector = Ok r ->
      r = filter (fun w => negb (memb eqb w var)) vector.
  Proof.
    intros var vector r H.
    destruct (remove_variables_spec var vector) as [[_ E]|[_ E]]; rewrite E in H;
      [discriminate | injection H as <-; reflexivity].
  Qed.

  Lemma remove_variables_In : forall var vector r,
      remove_variables_from_vector eqb var vector = Ok r ->
      forall w, In w r <-> In w vector /\ ~ In w var.
  Proof.
    intros var vector r H w. apply remove_variables_content in H. subst r.
    rewrite filter_In, negb_true_iff. split.
    - intros [H1 H2]. split; [exact H1|]. intros Hin.
      apply (memb_spec A eqb eqb_eq) in Hin. congruence.
    - intros [H1 H2]. split; [exact H1|].
      destruct (memb eqb w var) eqn:E; [|reflexivity].
      apply (memb_spec A eqb eqb_eq) in E. contradiction.
  Qed.

  Lemma remove_variables_NoDup : forall var vector r,
      NoDup vector -> remove_variables_from_vector eqb var vector = Ok r -> NoDup r.
  Proof.
    intros var vector r Hnd H. apply remove_variables_content in H. subst r.
    apply NoDup_filter, Hnd.
  Qed.
End RemovalVars.

Section Names.
  Context {A : Type}.
  Variable name : A -> string.
  Variable re_match : string -> string -> bool.

  Lemma find_by_name_In : forall names vector exact v,
      In v (find_variables_in_vector_by_name name re_match names vector exact) <->
      In v vector /\
      exists n, In n names /\
        (if exact then name v = n else re_match n (name v) = true).
  Proof.
    intros names vector exact v. unfold find_variables_in_vector_by_name.
    destruct exact; rewrite in_flat_map; split.
    - intros [n [Hn H]]. apply filter_In in H. destruct H as [H1 H2].
      split; [exact H1|]. exists n. split; [exact Hn | apply String.eqb_eq, H2].
    - intros [H1 [n [Hn H2]]]. exists n. split; [exact Hn|]. apply filter_In.
      split; [exact H1 | apply String.eqb_eq, H2].
    - intros [n [Hn H]]. apply filter_In in H. destruct H as [H1 H2].
      split; [exact H1|]. exists n. split; assumption.
    - intros [H1 [n [Hn H2]]]. exists n. split; [exact Hn|]. apply filter_In. split; assumption.
  Qed.

  Lemma get_variables_by_names_In : forall names groups v,
      In v (get_variables_by_names name re_match names groups) <->
      exists g n, In g groups /\ In v g /\ In n names /\ re_match n (name v) = true.
  Proof.
    intros names groups v. unfold get_variables_by_names. rewrite in_flat_map. split.
    - intros [g [Hg H]]. apply find_by_name_In in H. destruct H as [Hv [n [Hn Hm]]].
      exists g, n. repeat split; assumption.
    - intros [g [n [Hg [Hv [Hn Hm]]]]]. exists g. split; [exact Hg|].
      apply find_by_name_In. split; [exact Hv|]. exists n. split; assumption.
  Qed.

  (** With a single name, the search is a filter over all groups in order. *)
  Lemma get_variables_single : forall n groups,
      get_variables_by_names name re_match [n] groups =
      filter (fun v => re_match n (name v)) (concat groups).
  Proof.
    intros n groups. unfold get_variables_by_names, find_variables_in_vector_by_name.
    induction groups as [|g groups IH]; simpl; [reflexivity|].
    rewrite filter_app, <- IH. simpl. rewrite app_nil_r. reflexivity.
  Qed.

  Lemma get_variable_by_name_spec : forall n groups,
      match get_variable_by_name name re_match n groups with
      | Ok v => exists before after,
          concat groups = before ++ v :: after /\
          re_match n (name v) = true /\
          (forall w, In w (before ++ after) -> re_match n (name w) = false)
      | Raise e => e = ValueError /\
          ((forall w, In w (concat groups) -> re_match n (name w) = false) \/
           (exists a b c v w, concat groups = a ++ v :: b ++ w :: c /\
              re_match n (name v) = true /\ re_match n (name w) = true))
      end.
  Proof.
    intros n groups. unfold get_variable_by_name. rewrite get_variables_single.
    generalize (concat groups) as l. intros l.
    assert (Hsplit : forall m, match filter (fun v => re_match n (name v)) m with
              | [] => forall w, In w m -> re_match n (name w) = false
              | v :: rest => exists a b, m = a ++ v :: b /\ re_match n (name v) = true /\
                   (forall w, In w a -> re_match n (name w) = false) /\
                   filter (fun v => re_match n (name v)) b = rest
              end).
    { induction m as [|x m IH]; simpl; [intros w []|].
      destruct (re_match n (name x)) eqn:Ex.
      - exists [], m. repeat split; [exact Ex | intros w []].
      - destruct (filter _ m) as [|v rest] eqn:Ef.
        + intros w [<-|Hw]; [exact Ex | apply IH, Hw].
        + destruct IH as [a [b [-> [Hv [Ha Hb]]]]].
          exists (x :: a), b. repeat split; try assumption.
          intros w [<-|Hw]; [exact Ex | apply Ha, Hw]. }
    pose proof (Hsplit l) as H.
    destruct (filter (fun v => re_match n (name v)) l) as [|v [|w rest]] eqn:Ef.
    - split; [reflexivity | left; exact H].
    - destruct H as [a [b [-> [Hv [Ha Hb]]]]].
      exists a, b. split; [reflexivity|]. split; [exact Hv|].
      intros x Hx. apply in_app_or in Hx. destruct Hx as [Hx|Hx]; [apply Ha, Hx|].
      pose proof (Hsplit b) as Hb2. rewrite Hb in Hb2. apply Hb2, Hx.
    - destruct H as [a [b [-> [Hv [Ha Hb]]]]].
      pose proof (Hsplit b) as Hb2. rewrite Hb in Hb2.
      destruct Hb2 as [a2 [b2 [-> [Hw [_ _]]]]].
      split; [reflexivity|]. right. exists a, a2, b2, v, w.
      repeat split; assumption.
  Qed.
End Names.

Section Thetas.
  Context {A : Type}.

  Definition dict_wf (th : theta A) : Prop := NoDup (dkeys th).
  Definition args_wf (args : list (option (theta A))) : Prop :=
    forall th, In (Some th) args -> dict_wf th.

  Lemma dkeys_length : forall (th : theta A), length (dkeys th) = length th.
  Proof. intros th. apply map_length. Qed.

  Lemma join_check_spec : forall (args : list (option (theta A))) n,
      match join_thetas_check n args with
      | Ok ks =>
          ks = flat_map (fun a => match a with None => [] | Some th => dkeys th end) args /\
          (forall t, In (Some t) args -> t <> [] -> (n <> 0 -> length t = n) /\
             forall t', In (Some t') args -> t' <> [] -> length t = length t')
      | Raise e => e = ValueError /\
          ((exists t, In (Some t) args /\ t <> [] /\ n <> 0 /\ length t <> n) \/
           (exists t t', In (Some t) args /\ In (Some t') args /\ t <> [] /\ t' <> [] /\
              length t <> length t'))
      end.
  Proof.
    intros args; induction args as [|[th|] args IH]; intros n; simpl.
    - split; [reflexivity | intros t []].
    - rewrite !dkeys_length.
      destruct ((0 <? length th)%nat &&
                negb (length th =? (if (n =? 0)%nat then length th else n))%nat) eqn:E.
      + apply andb_true_iff in E. destruct E as [E1 E2].
        apply Nat.ltb_lt in E1. apply negb_true_iff, Nat.eqb_neq in E2.
        destruct (Nat.eqb_spec n 0) as [->|Hn]; [lia|].
        split; [reflexivity|]. left. exists th. repeat split; try assumption.
        * left; reflexivity.
        * intros ->; simpl in E1; lia.
      + set (n' := if (n =? 0)%nat then length th else n) in *.
        assert (Hn' : th <> [] -> length th = n').
        { intros Hth. destruct th as [|x th]; [contradiction|].
          apply andb_false_iff in E. destruct E as [E|E]; [discriminate E|].
          apply negb_false_iff, Nat.eqb_eq in E. exact E. }
        specialize (IH n').
        destruct (join_thetas_check n' args) as [ks|e].
        * destruct IH as [IH1 IH2]. split; [rewrite IH1; reflexivity|].
          assert (Hth : forall t, In (Some t) args -> t <> [] -> th <> [] -> length t = length th).
          { intros t Ht Hne Hne'. destruct (IH2 t Ht Hne) as [H1 _].
            rewrite (Hn' Hne'). apply H1. rewrite <- (Hn' Hne').
            destruct th; [contradiction | simpl; lia]. }
          intros t Ht Hne. split.
          -- intros Hn. assert (En : n' = n) by (unfold n'; destruct (Nat.eqb_spec n 0); lia).
             destruct Ht as [Ht|Ht].
             ++ injection Ht as ->. rewrite <- En. apply Hn', Hne.
             ++ destruct (IH2 t Ht Hne) as [H1 _]. rewrite <- En. apply H1. lia.
          -- intros t' Ht' Hne'. destruct Ht as [Ht|Ht]; destruct Ht' as [Ht'|Ht'].
             ++ congruence.
             ++ injection Ht as ->. symmetry. apply Hth; assumption.
             ++ injection Ht' as ->. apply Hth; assumption.
             ++ destruct (IH2 t Ht Hne) as [_ H2]. apply H2; assumption.
        * destruct IH as [-> IH]. split; [reflexivity|].
          destruct IH as [[t [Ht [Hne [Hn0 Hl]]]]|[t [t' [Ht [Ht' H]]]]].
          -- destruct (Nat.eqb_spec n 0) as [Hn|Hn].
             ++ right. exists t, th. repeat split; try assumption.
                ** right; exact Ht.
                ** left; reflexivity.
                ** intros ->. apply Hn0. subst n'. reflexivity.
             ++ left. exists t. repeat split; try assumption. right; exact Ht.
          -- right. exists t, t'. split; [right; exact Ht|]. split; [right; exact Ht' | exact H].
    - specialize (IH n). destruct (join_thetas_check n args) as [ks|e].
      + destruct IH as [IH1 IH2]. split; [exact IH1|].
        intros t [Ht|Ht] Hne; [discriminate|]. destruct (IH2 t Ht Hne) as [H1 H2].
        split; [exact H1|]. intros t' [Ht'|Ht'] Hne'; [discriminate | apply H2; assumption].
      + destruct IH as [-> IH]. split; [reflexivity|].
        destruct IH as [[t [Ht H]]|[t [t' [Ht [Ht' H]]]]].
        * left; exists t; split; [right; exact Ht | exact H].
        * right; exists t, t'. split; [right; exact Ht|]. split; [right; exact Ht' | exact H].
  Qed.

  Lemma dget_map_keys : forall (f : nat -> list A) ks i,
      dget Nat.eqb i (map (fun k => (k, f k)) ks) = if memb Nat.eqb i ks then Some (f i) else None.
  Proof.
    intros f ks i; induction ks as [|k ks IH]; simpl; [reflexivity|].
    unfold memb in *. simpl. destruct (Nat.eqb_spec i k) as [->|H]; simpl; [reflexivity | exact IH].
  Qed.

  Lemma theta_values_nil : forall i (args : list (option (theta A))),
      theta_values i args = [] <->
      forall th, In (Some th) args -> ~ In i (dkeys th).
  Proof.
    intros i args; induction args as [|[th|] args IH]; simpl.
    - split; [intros _ th [] | reflexivity].
    - destruct (dget Nat.eqb i th) eqn:E; simpl.
      + split; [discriminate|]. intros H. exfalso. apply (H th (or_introl eq_refl)).
        apply (dget_In Nat.eqb Nat.eqb_eq) in E. change i with (fst (i, l)). apply in_map, E.
      + rewrite IH. apply (dget_None Nat.eqb Nat.eqb_eq) in E. split.
        * intros H t [Ht|Ht]; [injection Ht as <-; exact E | apply H, Ht].
        * intros H t Ht; apply H; right; exact Ht.
    - rewrite IH. split.
      + intros H t [Ht|Ht]; [discriminate | apply H, Ht].
      + intros H t Ht; apply H; right; exact Ht.
  Qed.

  Lemma join_keys_In : forall i (args : list (option (theta A))),
      In i (flat_map (fun a => match a with None => [] | Some th => dkeys th end) args) <->
      exists th, In (Some th) args /\ In i (dkeys th).
  Proof.
    intros i args. rewrite in_flat_map. split.
    - intros [[th|] [H1 H2]]; [exists th; split; assumption | contradiction].
    - intros [th [H1 H2]]. exists (Some th). split; assumption.
  Qed.

  Lemma join_thetas_lookup : forall (args : list (option (theta A))) r,
      join_thetas args = Ok r ->
      NoDup (dkeys r) /\
      forall i, dget Nat.eqb i r =
                match theta_values i args with [] => None | vs => Some (concat vs) end.
  Proof.
    intros args r. unfold join_thetas.
    pose proof (join_check_spec args 0) as Hc.
    destruct (join_thetas_check 0 args) as [ks|e]; [|discriminate].
    destruct Hc as [Hks _]. intros H; injection H as <-. split.
    - unfold dkeys. rewrite map_map. simpl. rewrite map_id. apply NoDup_nodup.
    - intros i. rewrite (dget_map_keys (fun k => concat (theta_values k args))).
      destruct (memb Nat.eqb i (nodup Nat.eq_dec ks)) eqn:E.
      + apply memb_nat in E. rewrite nodup_In, Hks, join_keys_In in E.
        destruct E as [th [H1 H2]].
        destruct (theta_values i args) eqn:Ev; [|reflexivity].
        exfalso. apply (proj1 (theta_values_nil i args) Ev th H1 H2).
      + destruct (theta_values i args) as [|v vs] eqn:Ev; [reflexivity|].
        exfalso. assert (Hn : theta_values i args <> []) by (rewrite Ev; discriminate).
        apply Hn. apply theta_values_nil. intros th H1 H2.
        assert (Hm : memb Nat.eqb i (nodup Nat.eq_dec ks) = true).
        { apply memb_nat, nodup_In. rewrite Hks. apply join_keys_In. exists th; split; assumption. }
        congruence.
  Qed.

  Lemma dget_find : forall i (d : theta A),
      dget Nat.eqb i d = option_map snd (find (fun kv => Nat.eqb (fst kv) i) d).
  Proof.
    intros i d; induction d as [|[k v] d IH]; simpl; [reflexivity|].
    rewrite Nat.eqb_sym. destruct (k =? i)%nat; [reflexivity | exact IH].
  Qed.

  Lemma theta_values_held : forall i (args : list (option (theta A))),
      theta_values i args = values_held i args.
  Proof.
    intros i args; induction args as [|[d|] args IH]; simpl; [reflexivity| |exact IH].
    fold (theta_values i args). rewrite IH, dget_find.
    destruct (find (fun kv => Nat.eqb (fst kv) i) d); reflexivity.
  Qed.

  Lemma join_thetas_held : forall (args : list (option (theta A))) r,
      join_thetas args = Ok r ->
      NoDup (dkeys r) /\
      forall i, dget Nat.eqb i r =
                match values_held i args with [] => None | vs => Some (concat vs) end.
  Proof.
    intros args r H. apply join_thetas_lookup in H. destruct H as [H1 H2].
    split; [exact H1|]. intros i. rewrite <- theta_values_held. apply H2.
  Qed.

  Lemma join_thetas_error : forall (args : list (option (theta A))) e,
      join_thetas args = Raise e <->
      e = ValueError /\
      exists t t', In (Some t) args /\ In (Some t') args /\ t <> [] /\ t' <> [] /\
                   length t <> length t'.
  Proof.
    intros args e. unfold join_thetas.
    pose proof (join_check_spec args 0) as Hc.
    destruct (join_thetas_check 0 args) as [ks|e'].
    - destruct Hc as [_ Hc]. split; [discriminate|].
      intros [_ [t [t' [H1 [H2 [H3 [H4 H5]]]]]]]. exfalso.
      destruct (Hc t H1 H3) as [_ H]. apply H5, H; assumption.
    - destruct Hc as [-> Hc]. split.
      + intros H; injection H as <-. split; [reflexivity|].
        destruct Hc as [[t [_ [_ [H _]]]]|Hc]; [congruence | exact Hc].
      + intros [-> _]. reflexivity.
  Qed.

  Lemma theta_values_app : forall i (a b : list (option (theta A))),
      theta_values i (a ++ b) = theta_values i a ++ theta_values i b.
  Proof. intros i a b. unfold theta_values. apply flat_map_app. Qed.

  (** Joining a joined prefix with the rest gives the same lookups as joining
      everything at once. *)
  Lemma join_thetas_assoc : forall (a b c : list (option (theta A))) ab r1 r2,
      join_thetas b = Ok ab ->
      join_thetas (a ++ Some ab :: c) = Ok r1 ->
      join_thetas (a ++ b ++ c) = Ok r2 ->
      forall i, dget Nat.eqb i r1 = dget Nat.eqb i r2.
  Proof.
    intros a b c ab r1 r2 Hb H1 H2 i.
    apply join_thetas_lookup in Hb. destruct Hb as [_ Hb].
    apply join_thetas_lookup in H1. destruct H1 as [_ H1].
    apply join_thetas_lookup in H2. destruct H2 as [_ H2].
    rewrite H1, H2. rewrite !theta_values_app.
    change (Some ab :: c) with ([Some ab] ++ c). rewrite theta_values_app.
    unfold theta_values at 2. simpl. rewrite Hb, app_nil_r.
    destruct (theta_values i b) as [|v vs] eqn:Ev; simpl; [reflexivity|].
    destruct (theta_values i a) as [|w ws]; simpl.
    - f_equal. rewrite concat_app. rewrite <- app_assoc. reflexivity.
    - f_equal. f_equal. rewrite !concat_app. simpl. rewrite concat_app.
      rewrite <- !app_assoc. reflexivity.
  Qed.

  Lemma join_thetas_two : forall (a b : theta A) r i va vb,
      join_thetas [Some a; Some b] = Ok r ->
      dget Nat.eqb i a = Some va -> dget Nat.eqb i b = Some vb ->
      dget Nat.eqb i r = Some (va ++ vb).
  Proof.
    intros a b r i va vb H Ha Hb. apply join_thetas_lookup in H. destruct H as [_ H].
    rewrite H. simpl. rewrite Ha, Hb. simpl. rewrite app_nil_r. reflexivity.
  Qed.

  Lemma constant_theta_lookup : forall (c : A) rows cols n i,
      dget Nat.eqb i (create_constant_theta c rows cols n) =
      if (i <? n)%nat then Some (repeat c (rows * cols)) else None.
  Proof.
    intros c rows cols n i. unfold create_constant_theta.
    rewrite (dget_map_keys (fun _ => repeat c (rows * cols))).
    destruct (Nat.ltb_spec i n) as [H|H].
    - replace (memb Nat.eqb i (seq 0 n)) with true; [reflexivity|].
      symmetry. apply memb_nat, in_seq. lia.
    - destruct (memb Nat.eqb i (seq 0 n)) eqn:E; [|reflexivity].
      apply memb_nat, in_seq in E. lia.
  Qed.
End Thetas.

(** Timer and timeout. *)
Lemma timer_reports_difference : forall t0 t1 t2 tm,
    snd (timer_exit t1 (timer_enter t0 tm)) = Ok tt /\
    timer_elapsed (fst (timer_exit t1 (timer_enter t0 tm))) = Ok (t1 - t0)%Z /\
    timer_elapsed_milisecs (fst (timer_exit t1 (timer_enter t0 tm))) = Ok ((t1 - t0) * 1000)%Z /\
    timer_elapsed (timer_enter t2 timer_init) = Raise ValueError /\
    timer_elapsed_milisecs (timer_enter t2 timer_init) = Raise ValueError.
Proof. intros; repeat split. Qed.

Lemma follow_cause_complete : forall depth e,
    exists n, (n <= depth)%nat /\ cause_chain n e (follow_cause depth e) /\
              (n = depth \/ exc_cause (follow_cause depth e) = None).
Proof.
  induction depth as [|d IH]; intros e; simpl.
  - exists 0. split; [lia|]. split; [constructor | left; reflexivity].
  - destruct e as [b [c|]]; simpl.
    + destruct (IH c) as [n [Hn [Hc Hd]]]. exists (S n). split; [lia|].
      split; [constructor; exact Hc|]. destruct Hd as [->|Hd]; [left; reflexivity | right; exact Hd].
    + exists 0. split; [lia|]. split; [constructor | right; reflexivity].
Qed.

Lemma follow_cause_chain : forall n depth e last,
    cause_chain n e last -> exc_cause last = None -> (n <= depth)%nat ->
    follow_cause depth e = last.
Proof.
  intros n depth e last H; revert depth; induction H as [e|n b c e H IH]; intros depth Hl Hn.
  - destruct depth; simpl; [reflexivity|]. rewrite Hl. reflexivity.
  - destruct depth as [|d]; [lia|]. simpl. apply IH; [exact Hl | lia].
Qed.

Lemma timeout_exit_spec : forall raise_exc t0 n e last,
    cause_chain n e last -> exc_cause last = None -> (n <= 20)%nat ->
    timeout_on_exit raise_exc t0 (Some e) =
    if exc_is_timeout last then mkExit (Some true) (negb raise_exc) else mkExit (Some false) false.
Proof.
  intros raise_exc t0 n e last H Hl Hn. unfold timeout_on_exit.
  rewrite (follow_cause_chain n 20 e last H Hl Hn). reflexivity.
Qed.

Lemma timeout_suppressed_only_timeouts : forall raise_exc t0 e,
    te_suppressed (timeout_on_exit raise_exc t0 (Some e)) = true ->
    raise_exc = false /\
    exists n last, (n <= 20)%nat /\ cause_chain n e last /\ exc_is_timeout last = true.
Proof.
  intros raise_exc t0 e. unfold timeout_on_exit.
  destruct (exc_is_timeout (follow_cause 20 e)) eqn:E; [|discriminate].
  cbn [te_suppressed]. intros H. split; [destruct raise_exc; [discriminate | reflexivity]|].
  destruct (follow_cause_complete 20 e) as [n [Hn [Hc _]]].
  exists n, (follow_cause 20 e). repeat split; assumption.
Qed.

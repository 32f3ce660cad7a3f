(** Proofs about the table of a data set. *)
From Coq Require Import String QArith SetoidList Permutation Lia.
From Verif Require Import Base DataModel FraModel FraSpec.
Local Open Scope list_scope.
Local Open Scope nat_scope.

(** ** One entry *)

Lemma in_combine_nth {A B : Type} : forall (l : list A) (l' : list B) a b,
  In (a, b) (combine l l') <-> exists i, nth_error l i = Some a /\ nth_error l' i = Some b.
Proof.
  induction l as [|x l IH]; intros [|y l'] a b; simpl.
  - split; [contradiction|]. intros [[|i] [H _]]; discriminate.
  - split; [contradiction|]. intros [[|i] [H _]]; discriminate.
  - split; [contradiction|]. intros [[|i] [_ H]]; discriminate.
  - rewrite IH. split.
    + intros [E|[i H]]; [injection E as <- <-; exists 0; split; reflexivity|exists (S i); exact H].
    + intros [[|i] [H H']]; [left; simpl in *; congruence|right; exists i; split; assumption].
Qed.

Lemma entry_rows : forall k e f, entry_frame k e = Ok f ->
  f_columns f = map (fun name => (k, name)) (e_names e) /\ filled e /\
  forall t cells, has_row f t cells <-> exists v, recorded e t v /\ cells = map Some v.
Proof.
  intros k e f. unfold entry_frame.
  destruct (length (mcols (e_values e)) =? length (e_time e)) eqn:E1; [|discriminate].
  destruct (mrows (e_values e) =? length (e_names e)) eqn:E2; [|discriminate].
  intros H. injection H as <-. apply Nat.eqb_eq in E1, E2.
  split; [reflexivity|]. split; [split; assumption|].
  intros t cells. unfold has_row, recorded. cbn [f_rows]. split.
  - intros [t' [Ht Hin]]. apply in_combine_nth in Hin. destruct Hin as [i [A B]].
    rewrite nth_error_map in B. destruct (nth_error (mcols (e_values e)) i) as [v|] eqn:C; [|discriminate].
    injection B as <-. exists v. split; [|reflexivity]. exists i, t'. split; [exact A|]. split; [exact Ht|exact C].
  - intros [v [[i [t' [A [B C]]]] ->]]. exists t'. split; [exact B|].
    apply in_combine_nth. exists i. split; [exact A|]. rewrite nth_error_map, C. reflexivity.
Qed.

Lemma named_cons : forall k e d, named ((k, e) :: d) = if is_empty e then named d else (k, e) :: named d.
Proof. intros k e d. unfold named, is_empty. cbn [filter snd]. destruct (e_names e); reflexivity. Qed.

(** ** Merging *)

(** The rows of a table at a time, or one row without values. *)
Definition full (f : frame) (t : Q) (cells : list (option Q)) : Prop :=
  has_row f t cells \/ ((forall c, ~ has_row f t c) /\ cells = repeat None (length (f_columns f))).

Section Merging.
  Variable arrange : list (Q * list (option Q)) -> list (Q * list (option Q)).
  Hypothesis arranges : forall l, Permutation (arrange l) l.

  Lemma merge_rows : forall a b t cells,
    has_row (outer_merge arrange a b) t cells <->
    (exists ca cb, has_row a t ca /\ has_row b t cb /\ cells = ca ++ cb) \/
    (exists ca, has_row a t ca /\ (forall c, ~ has_row b t c) /\ cells = ca ++ repeat None (length (f_columns b))) \/
    (exists cb, (forall c, ~ has_row a t c) /\ has_row b t cb /\ cells = repeat None (length (f_columns a)) ++ cb).
  Proof.
    intros a b t cells. unfold has_row at 1, outer_merge. cbn [f_rows]. split.
    - intros [t' [Ht Hin]]. apply (Permutation_in _ (arranges _)), in_app_iff in Hin. destruct Hin as [Hin|Hin].
      + apply in_flat_map in Hin. destruct Hin as [[ta ca] [Ha Hin]]. cbn [fst snd] in Hin.
        destruct (filter _ (f_rows b)) as [|rb l] eqn:El.
        * destruct Hin as [E|[]]. injection E as <- <-. right. left. exists ca.
          split; [exists ta; split; assumption|]. split; [|reflexivity].
          intros c [tb [Hb Hinb]].
          assert (Hf : In (tb, c) (filter (fun rb => Qeq_bool ta (fst rb)) (f_rows b))).
          { apply filter_In. split; [exact Hinb|]. apply Qeq_bool_iff. cbn [fst]. rewrite Ht, Hb. reflexivity. }
          rewrite El in Hf. exact Hf.
        * rewrite <- El in Hin. apply in_map_iff in Hin. destruct Hin as [[tb cb] [E Hb]].
          apply filter_In in Hb. destruct Hb as [Hb Eq]. apply Qeq_bool_iff in Eq. cbn [fst snd] in *.
          injection E as <- <-. left. exists ca, cb. split; [exists ta; split; assumption|].
          split; [|reflexivity]. exists tb. split; [|exact Hb]. rewrite <- Eq. exact Ht.
      + apply in_map_iff in Hin. destruct Hin as [[tb cb] [E Hb]]. apply filter_In in Hb. destruct Hb as [Hb Hn].
        cbn [fst snd] in *. injection E as <- <-. right. right. exists cb.
        split; [|split; [exists tb; split; assumption|reflexivity]].
        intros c [ta [Ha Hina]]. apply Bool.negb_true_iff in Hn.
        assert (Hx : existsb (fun ra : Q * list (option Q) => Qeq_bool (fst ra) tb) (f_rows a) = true).
        { apply existsb_exists. exists (ta, c). split; [exact Hina|]. apply Qeq_bool_iff. cbn [fst].
          rewrite Ha, Ht. reflexivity. }
        congruence.
    - intros H.
      assert (G : exists t', (t' == t)%Q /\ In (t', cells)
         (flat_map (fun ra => match filter (fun rb => Qeq_bool (fst ra) (fst rb)) (f_rows b) with
                              | [] => [(fst ra, snd ra ++ repeat None (length (f_columns b)))]
                              | l => map (fun rb => (fst ra, snd ra ++ snd rb)) l
                              end) (f_rows a) ++
          map (fun rb => (fst rb, repeat None (length (f_columns a)) ++ snd rb))
              (filter (fun rb => negb (existsb (fun ra => Qeq_bool (fst ra) (fst rb)) (f_rows a))) (f_rows b)))).
      { destruct H as [[ca [cb [[ta [Ha Hina]] [[tb [Hb Hinb]] ->]]]]|
                       [[ca [[ta [Ha Hina]] [Hn ->]]]|[cb [Hn [[tb [Hb Hinb]] ->]]]]].
        - exists ta. split; [exact Ha|]. apply in_app_iff. left. apply in_flat_map.
          exists (ta, ca). split; [exact Hina|]. cbn [fst snd].
          assert (Hf : In (tb, cb) (filter (fun rb => Qeq_bool ta (fst rb)) (f_rows b))).
          { apply filter_In. split; [exact Hinb|]. apply Qeq_bool_iff. cbn [fst]. rewrite Ha, Hb. reflexivity. }
          destruct (filter _ (f_rows b)) as [|r l] eqn:El; [contradiction|].
          apply (in_map (fun rb : Q * list (option Q) => (ta, ca ++ snd rb))) in Hf. exact Hf.
        - exists ta. split; [exact Ha|]. apply in_app_iff. left. apply in_flat_map.
          exists (ta, ca). split; [exact Hina|]. cbn [fst snd].
          destruct (filter _ (f_rows b)) as [|[tb cb] l] eqn:El; [left; reflexivity|].
          exfalso. assert (Hf : In (tb, cb) (filter (fun rb => Qeq_bool ta (fst rb)) (f_rows b)))
            by (rewrite El; left; reflexivity).
          apply filter_In in Hf. destruct Hf as [Hf Eq]. apply Qeq_bool_iff in Eq. cbn [fst] in Eq.
          apply (Hn cb). exists tb. split; [|exact Hf]. rewrite <- Eq. exact Ha.
        - exists tb. split; [exact Hb|]. apply in_app_iff. right. apply in_map_iff. exists (tb, cb).
          split; [reflexivity|]. apply filter_In. split; [exact Hinb|]. apply Bool.negb_true_iff. cbn [fst].
          destruct (existsb _ (f_rows a)) eqn:Ex; [|reflexivity]. exfalso.
          apply existsb_exists in Ex. destruct Ex as [[ta ca] [Hina Eq]]. apply Qeq_bool_iff in Eq. cbn [fst] in Eq.
          apply (Hn ca). exists ta. split; [|exact Hina]. rewrite Eq. exact Hb. }
      destruct G as [t' [Ht Hin]]. exists t'. split; [exact Ht|].
      apply (Permutation_in _ (Permutation_sym (arranges _))). exact Hin.
  Qed.

  Lemma row_or_none : forall f t, (exists c, has_row f t c) \/ (forall c, ~ has_row f t c).
  Proof.
    intros f t. unfold has_row. induction (f_rows f) as [|[t' c'] l IH].
    - right. intros c [x [_ []]].
    - destruct IH as [[c [x [A B]]]|IH]; [left; exists c, x; split; [exact A|right; exact B]|].
      destruct (Qeq_dec t' t) as [E|E].
      + left. exists c', t'. split; [exact E|left; reflexivity].
      + right. intros c [x [A [B|B]]]; [injection B as -> ->; contradiction|].
        apply (IH c). exists x. split; assumption.
  Qed.

  Lemma merge_full : forall a b t cells,
    full (outer_merge arrange a b) t cells <-> exists ca cb, full a t ca /\ full b t cb /\ cells = ca ++ cb.
  Proof.
    intros a b t cells. unfold full.
    assert (Hc : length (f_columns (outer_merge arrange a b)) = length (f_columns a) + length (f_columns b))
      by (cbn [outer_merge f_columns]; apply app_length).
    rewrite Hc, repeat_app. split.
    - intros [H|[Hn ->]].
      + apply merge_rows in H.
        destruct H as [[ca [cb [A [B ->]]]]|[[ca [A [N ->]]]|[cb [N [B ->]]]]].
        * exists ca, cb. auto.
        * exists ca. eexists. split; [left; exact A|]. split; [right; split; [exact N|reflexivity]|reflexivity].
        * eexists. exists cb. split; [right; split; [exact N|reflexivity]|]. split; [left; exact B|reflexivity].
      + destruct (row_or_none a t) as [[ca A]|NA].
        { exfalso. destruct (row_or_none b t) as [[cb B]|NB].
          - apply (Hn (ca ++ cb)). apply merge_rows. left. exists ca, cb. auto.
          - eapply Hn. apply merge_rows. right. left. exists ca. split; [exact A|]. split; [exact NB|reflexivity]. }
        destruct (row_or_none b t) as [[cb B]|NB].
        { exfalso. eapply Hn. apply merge_rows. right. right. exists cb. split; [exact NA|]. split; [exact B|reflexivity]. }
        eexists. eexists. split; [right; split; [exact NA|reflexivity]|].
        split; [right; split; [exact NB|reflexivity]|reflexivity].
    - intros [ca [cb [[A|[NA ->]] [[B|[NB ->]] ->]]]].
      + left. apply merge_rows. left. exists ca, cb. auto.
      + left. apply merge_rows. right. left. exists ca. auto.
      + left. apply merge_rows. right. right. exists cb. auto.
      + right. split; [|reflexivity]. intros c H. apply merge_rows in H.
        destruct H as [[ca [cb [A _]]]|[[ca [A _]]|[cb [_ [B _]]]]]; [apply (NA _ A)|apply (NA _ A)|apply (NB _ B)].
  Qed.

  Lemma merge_has : forall a b t,
    (exists c, has_row (outer_merge arrange a b) t c) <-> (exists c, has_row a t c) \/ (exists c, has_row b t c).
  Proof.
    intros a b t. split.
    - intros [c H]. apply merge_rows in H.
      destruct H as [[ca [cb [A _]]]|[[ca [A _]]|[cb [_ [B _]]]]]; [left; exists ca; exact A|left; exists ca; exact A|right; exists cb; exact B].
    - intros H. destruct (row_or_none a t) as [[ca A]|NA]; destruct (row_or_none b t) as [[cb B]|NB].
      + exists (ca ++ cb). apply merge_rows. left. exists ca, cb. auto.
      + eexists. apply merge_rows. right. left. exists ca. split; [exact A|]. split; [exact NB|reflexivity].
      + eexists. apply merge_rows. right. right. exists cb. split; [exact NA|]. split; [exact B|reflexivity].
      + exfalso. destruct H as [[c H]|[c H]]; [apply (NA _ H)|apply (NB _ H)].
  Qed.

  Lemma entry_full : forall k e f, entry_frame k e = Ok f -> forall t cells, full f t cells <-> shows e t cells.
  Proof.
    intros k e f H t cells. destruct (entry_rows k e f H) as [Hc [_ Hr]]. unfold full, shows.
    rewrite Hr, Hc, map_length. split; (intros [A|[N E]]; [left; exact A|right; split; [|exact E]]).
    - intros v Hv. apply (N (map Some v)). apply Hr. exists v. split; [exact Hv|reflexivity].
    - intros c Hc'. apply Hr in Hc'. destruct Hc' as [v [Hv _]]. apply (N v Hv).
  Qed.
  Lemma entry_has : forall k e f, entry_frame k e = Ok f -> forall t,
    (exists c, has_row f t c) <-> exists v, recorded e t v.
  Proof.
    intros k e f H t. destruct (entry_rows k e f H) as [_ [_ Hr]]. split.
    - intros [c A]. apply Hr in A. destruct A as [v [A _]]. exists v. exact A.
    - intros [v A]. exists (map Some v). apply Hr. exists v. split; [exact A|reflexivity].
  Qed.

  (** ** The loop *)

  Lemma loop_some : forall d f g, merge_entries arrange (Some f) d = Ok g ->
    exists h, g = Some h /\
      f_columns h = f_columns f ++ flat_map (fun ke => map (fun name => (fst ke, name)) (e_names (snd ke))) (named d) /\
      Forall (fun ke => filled (snd ke)) (named d) /\
      (forall t cells, full h t cells <->
         exists c0 cs, full f t c0 /\ Forall2 (fun ke c => shows (snd ke) t c) (named d) cs /\ cells = c0 ++ concat cs) /\
      (forall t, (exists c, has_row h t c) <->
         (exists c, has_row f t c) \/ exists ke v, In ke (named d) /\ recorded (snd ke) t v).
  Proof.
    induction d as [|[k e] d IH]; intros f g H; cbn [merge_entries] in H.
    - injection H as <-. exists f. split; [reflexivity|]. split; [simpl; rewrite app_nil_r; reflexivity|].
      split; [constructor|]. split.
      + intros t cells. split.
        * intros A. exists cells, []. split; [exact A|]. split; [constructor|]. simpl. rewrite app_nil_r. reflexivity.
        * intros [c0 [cs [A [B ->]]]]. inversion B; subst. simpl. rewrite app_nil_r. exact A.
      + intros t. split; [intros A; left; exact A|]. intros [A|[ke [v [[] _]]]]. exact A.
    - rewrite named_cons. destruct (is_empty e) eqn:Ee.
      { apply IH. exact H. }
      destruct (entry_frame k e) as [fe|x] eqn:Ef; cbn in H; [|discriminate].
      destruct (IH _ _ H) as [h [-> [Hc [Hfl [Hf Hh]]]]].
      destruct (entry_rows _ _ _ Ef) as [Ec [Efl _]].
      exists h. split; [reflexivity|]. split.
      { rewrite Hc. cbn [outer_merge f_columns flat_map fst snd]. rewrite Ec, app_assoc. reflexivity. }
      split; [constructor; [exact Efl|exact Hfl]|]. split.
      + intros t cells. rewrite Hf. split.
        * intros [c0 [cs [A [B ->]]]]. apply merge_full in A. destruct A as [ca [cb [A1 [A2 ->]]]].
          exists ca, (cb :: cs). split; [exact A1|]. split; [|simpl; rewrite app_assoc; reflexivity].
          constructor; [|exact B]. apply (entry_full _ _ _ Ef). exact A2.
        * intros [c0 [cs [A [B ->]]]]. inversion B as [|? cb ? cs' B1 B2]; subst.
          exists (c0 ++ cb), cs'. split; [|split; [exact B2|simpl; rewrite app_assoc; reflexivity]].
          apply merge_full. exists c0, cb. split; [exact A|]. split; [|reflexivity].
          apply (entry_full _ _ _ Ef). exact B1.
      + intros t. rewrite Hh, merge_has, (entry_has _ _ _ Ef). split.
        * intros [[A|[v A]]|[ke [v [A B]]]]; [left; exact A| |].
          { right. exists (k, e), v. split; [left; reflexivity|exact A]. }
          { right. exists ke, v. split; [right; exact A|exact B]. }
        * intros [A|[ke [v [[<-|A] B]]]]; [left; left; exact A|left; right; exists v; exact B|].
          right. exists ke, v. split; assumption.
  Qed.

  Lemma dataframe_all : forall d f, as_dataframe arrange d = Ok f ->
    f_columns f = flat_map (fun ke => map (fun name => (fst ke, name)) (e_names (snd ke))) (named d) /\
    Forall (fun ke => filled (snd ke)) (named d) /\ named d <> [] /\
    (forall t cells, full f t cells <->
       exists cs, Forall2 (fun ke c => shows (snd ke) t c) (named d) cs /\ cells = concat cs) /\
    (forall t, (exists c, has_row f t c) <-> exists ke v, In ke (named d) /\ recorded (snd ke) t v).
  Proof.
    intros d f. unfold as_dataframe. induction d as [|[k e] d IH]; cbn [merge_entries]; [discriminate|].
    rewrite named_cons. destruct (is_empty e) eqn:Ee; [exact IH|].
    destruct (entry_frame k e) as [fe|x] eqn:Ef; [|discriminate]. cbn.
    destruct (merge_entries arrange (Some fe) d) as [g|x] eqn:El; [|discriminate].
    destruct (loop_some _ _ _ El) as [h [-> [Hc [Hfl [Hf Hh]]]]]. intros H. injection H as <-.
    destruct (entry_rows _ _ _ Ef) as [Ec [Efl _]].
    split; [rewrite Hc, Ec; reflexivity|]. split; [constructor; [exact Efl|exact Hfl]|]. split; [discriminate|]. split.
    - intros t cells. rewrite Hf. split.
      + intros [c0 [cs [A [B ->]]]]. exists (c0 :: cs). split; [|reflexivity]. constructor; [|exact B].
        apply (entry_full _ _ _ Ef). exact A.
      + intros [cs [B ->]]. inversion B as [|? cb ? cs' B1 B2]; subst. exists cb, cs'.
        split; [apply (entry_full _ _ _ Ef); exact B1|]. split; [exact B2|reflexivity].
    - intros t. rewrite Hh, (entry_has _ _ _ Ef). split.
      + intros [[v A]|[ke [v [A B]]]]; [exists (k, e), v; split; [left; reflexivity|exact A]|].
        exists ke, v. split; [right; exact A|exact B].
      + intros [ke [v [[<-|A] B]]]; [left; exists v; exact B|right; exists ke, v; split; assumption].
  Qed.

  Lemma w_rows : forall d f, as_dataframe arrange d = Ok f ->
    f_columns f = flat_map (fun ke => map (fun name => (fst ke, name)) (e_names (snd ke))) (named d) /\
    forall t cells, has_row f t cells <->
      (exists ke v, In ke (named d) /\ recorded (snd ke) t v) /\
      exists cs, Forall2 (fun ke c => shows (snd ke) t c) (named d) cs /\ cells = concat cs.
  Proof.
    intros d f H. destruct (dataframe_all d f H) as [Hc [_ [_ [Hf Hh]]]]. split; [exact Hc|].
    intros t cells. split.
    - intros A. split; [apply Hh; exists cells; exact A|]. apply Hf. left. exact A.
    - intros [A B]. apply Hf in B. apply Hh in A. destruct B as [B|[N _]]; [exact B|].
      destruct A as [c A]. contradiction (N c A).
  Qed.

  (** ** When there is a table *)

  Lemma entry_ok : forall k e, filled e -> exists f, entry_frame k e = Ok f.
  Proof.
    intros k e [A B]. unfold entry_frame. rewrite A, B, !Nat.eqb_refl. eexists. reflexivity.
  Qed.
  Lemma entry_refused : forall k e, ~ filled e -> entry_frame k e = Raise ValueError.
  Proof.
    intros k e N. unfold entry_frame.
    destruct (length (mcols (e_values e)) =? length (e_time e)) eqn:E1; [|reflexivity].
    destruct (mrows (e_values e) =? length (e_names e)) eqn:E2; [|reflexivity].
    exfalso. apply N. split; apply Nat.eqb_eq; assumption.
  Qed.
  Lemma filled_dec : forall e, filled e \/ ~ filled e.
  Proof.
    intros e. unfold filled. destruct (Nat.eq_dec (length (mcols (e_values e))) (length (e_time e)));
      destruct (Nat.eq_dec (mrows (e_values e)) (length (e_names e))); tauto.
  Qed.
  Lemma loop_runs : forall d df,
    (Forall (fun ke => filled (snd ke)) (named d) ->
     exists g, merge_entries arrange df d = Ok g /\ (g = None <-> df = None /\ named d = [])) /\
    (~ Forall (fun ke => filled (snd ke)) (named d) -> merge_entries arrange df d = Raise ValueError).
  Proof.
    induction d as [|[k e] d IH]; intros df; cbn [merge_entries].
    - split; [|intros N; contradiction N; constructor]. intros _. exists df. split; [reflexivity|].
      split; [intros ->; split; reflexivity|intros [-> _]; reflexivity].
    - rewrite named_cons. destruct (is_empty e) eqn:Ee; [apply IH|].
      destruct (filled_dec e) as [F|F].
      + destruct (entry_ok k e F) as [fe Ef]. rewrite Ef. cbn.
        destruct (IH (Some match df with Some a => outer_merge arrange a fe | None => fe end)) as [I1 I2]. split.
        * intros A. inversion A as [|? ? _ A2]; subst. destruct (I1 A2) as [g [G1 G2]]. exists g. split; [exact G1|].
          rewrite G2. split; [intros [X _]; discriminate|intros [_ X]; discriminate].
        * intros N. apply I2. intros A. apply N. constructor; [exact F|exact A].
      + rewrite (entry_refused k e F). cbn. split; [|reflexivity].
        intros A. inversion A as [|? ? A1 _]; subst. contradiction.
  Qed.

  Lemma w_when : forall d,
    (named d = [] -> as_dataframe arrange d = Raise AttributeError) /\
    (named d <> [] -> Forall (fun ke => filled (snd ke)) (named d) -> exists f, as_dataframe arrange d = Ok f) /\
    (~ Forall (fun ke => filled (snd ke)) (named d) -> as_dataframe arrange d = Raise ValueError).
  Proof.
    intros d. destruct (loop_runs d None) as [L1 L2]. unfold as_dataframe. split; [|split].
    - intros E. destruct L1 as [g [G1 G2]]; [rewrite E; constructor|]. rewrite G1. cbn.
      rewrite (proj2 G2 (conj eq_refl E)). reflexivity.
    - intros N F. destruct (L1 F) as [g [G1 G2]]. rewrite G1. cbn.
      destruct g as [f|]; [exists f; reflexivity|]. exfalso. apply N. apply G2. reflexivity.
    - intros N. rewrite (L2 N). reflexivity.
  Qed.

  (** ** Different times *)

  Lemma NoDupA_perm : forall (l l' : list Q), Permutation l l' -> NoDupA Qeq l -> NoDupA Qeq l'.
  Proof.
    intros l l' P. induction P as [|x l l' P IH|x y l|l l' l'' _ IH1 _ IH2]; intros N.
    - exact N.
    - inversion N as [|? ? N1 N2]; subst. constructor; [|apply IH; exact N2].
      intros H. apply N1. apply InA_alt in H. destruct H as [z [E Hz]]. apply InA_alt. exists z. split; [exact E|].
      apply (Permutation_in _ (Permutation_sym P)). exact Hz.
    - inversion N as [|? ? N1 N2]; subst. inversion N2 as [|? ? N3 N4]; subst.
      constructor; [|constructor; [|exact N4]].
      + intros H. inversion H as [? ? E|? ? E]; subst; [apply N1; left; symmetry; exact E|apply N3; exact E].
      + intros H. apply N1. right. exact H.
    - auto.
  Qed.

  Lemma few_matches : forall t (l : list (Q * list (option Q))), NoDupA Qeq (map fst l) ->
    length (filter (fun rb => Qeq_bool t (fst rb)) l) <= 1.
  Proof.
    intros t l. induction l as [|[a c] l IH]; cbn [map fst filter]; intros N; [simpl; lia|].
    inversion N as [|? ? N1 N2]; subst. destruct (Qeq_bool t a) eqn:E; [|apply IH; exact N2].
    assert (Z : filter (fun rb : Q * list (option Q) => Qeq_bool t (fst rb)) l = []).
    { destruct (filter _ l) as [|[b c'] l'] eqn:El; [reflexivity|]. exfalso.
      assert (H : In (b, c') (filter (fun rb : Q * list (option Q) => Qeq_bool t (fst rb)) l)) by (rewrite El; left; reflexivity).
      apply filter_In in H. destruct H as [H1 H2]. cbn [fst] in H2. apply Qeq_bool_iff in E, H2.
      apply N1. apply InA_alt. exists b. split; [rewrite <- E; exact H2|]. apply in_map_iff. exists (b, c'). split; [reflexivity|exact H1]. }
    rewrite Z. simpl. lia.
  Qed.

  Lemma merge_once : forall a b, NoDupA Qeq (map fst (f_rows a)) -> NoDupA Qeq (map fst (f_rows b)) ->
    NoDupA Qeq (map fst (f_rows (outer_merge arrange a b))).
  Proof.
    intros a b Na Nb. cbn [outer_merge f_rows].
    eapply NoDupA_perm; [apply Permutation_map, Permutation_sym, arranges|].
    rewrite map_app, map_map. cbn [fst].
    assert (E : map fst (flat_map (fun ra : Q * list (option Q) =>
                    match filter (fun rb : Q * list (option Q) => Qeq_bool (fst ra) (fst rb)) (f_rows b) with
                    | [] => [(fst ra, snd ra ++ repeat None (length (f_columns b)))]
                    | p :: l => map (fun rb : Q * list (option Q) => (fst ra, snd ra ++ snd rb)) (p :: l)
                    end) (f_rows a)) = map fst (f_rows a)).
    { clear Na. induction (f_rows a) as [|[t c] l IH]; [reflexivity|]. cbn [flat_map]. rewrite map_app, IH. cbn [fst snd map].
      pose proof (few_matches t (f_rows b) Nb) as Hl.
      destruct (filter _ (f_rows b)) as [|p [|q l']]; [reflexivity|reflexivity|simpl in Hl; lia]. }
    rewrite E. apply NoDupA_app; [apply Q_Setoid|exact Na| |].
    - clear E. induction (f_rows b) as [|[t c] l IH]; [constructor|]. cbn [map fst] in Nb.
      inversion Nb as [|? ? N1 N2]; subst. cbn [filter fst]. destruct (existsb _ (f_rows a)); cbn [negb]; [apply IH; exact N2|].
      cbn [map fst]. constructor; [|apply IH; exact N2].
      intros H. apply N1. apply InA_alt in H. destruct H as [z [Ez Hz]]. apply InA_alt. exists z. split; [exact Ez|].
      apply in_map_iff in Hz. destruct Hz as [r [<- Hr]]. apply filter_In in Hr. apply in_map_iff. exists r. split; [reflexivity|apply Hr].
    - intros t Ha Hb. apply InA_alt in Ha, Hb. destruct Ha as [ta [Ea Ha]]. destruct Hb as [tb [Eb Hb]].
      apply in_map_iff in Ha, Hb. destruct Ha as [ra [<- Ha]]. destruct Hb as [rb [<- Hb]].
      apply filter_In in Hb. destruct Hb as [_ Hn]. apply Bool.negb_true_iff in Hn.
      assert (X : existsb (fun r : Q * list (option Q) => Qeq_bool (fst r) (fst rb)) (f_rows a) = true).
      { apply existsb_exists. exists ra. split; [exact Ha|]. apply Qeq_bool_iff. rewrite <- Ea, <- Eb. reflexivity. }
      congruence.
  Qed.

  Lemma combine_times : forall (ts : list Q) (cs : list (list (option Q))), length cs = length ts -> map fst (combine ts cs) = ts.
  Proof.
    induction ts as [|t ts IH]; intros [|c cs] H; try discriminate; [reflexivity|]. simpl. f_equal. apply IH. simpl in H. lia.
  Qed.
  Lemma entry_times : forall k e f, entry_frame k e = Ok f -> map fst (f_rows f) = e_time e.
  Proof.
    intros k e f H. destruct (entry_rows _ _ _ H) as [_ [[F _] _]]. unfold entry_frame in H.
    destruct (_ && _)%bool; [|discriminate]. injection H as <-. cbn [f_rows]. apply combine_times. rewrite map_length. exact F.
  Qed.

  Lemma w_once : forall d f, as_dataframe arrange d = Ok f ->
    Forall (fun ke => NoDupA Qeq (e_time (snd ke))) (named d) -> NoDupA Qeq (map fst (f_rows f)).
  Proof.
    intros d f H N.
    assert (G : forall d df g, Forall (fun ke => NoDupA Qeq (e_time (snd ke))) (named d) ->
      (forall a, df = Some a -> NoDupA Qeq (map fst (f_rows a))) -> merge_entries arrange df d = Ok (Some g) ->
      NoDupA Qeq (map fst (f_rows g))).
    { clear d f H N. induction d as [|[k e] d IH]; intros df g N Hdf H; cbn [merge_entries] in H.
      - injection H as ->. apply Hdf. reflexivity.
      - rewrite named_cons in N. destruct (is_empty e) eqn:Ee; [apply (IH df g N Hdf H)|].
        inversion N as [|? ? N1 N2]; subst. cbn [snd] in N1.
        destruct (entry_frame k e) as [fe|x] eqn:Ef; cbn in H; [|discriminate].
        apply (IH _ _ N2) in H; [exact H|]. intros a Ha. injection Ha as <-.
        assert (Ne : NoDupA Qeq (map fst (f_rows fe))) by (rewrite (entry_times _ _ _ Ef); exact N1).
        destruct df as [a|]; [|exact Ne]. apply merge_once; [apply Hdf; reflexivity|exact Ne]. }
    unfold as_dataframe in H. destruct (merge_entries arrange None d) as [[g|]|x] eqn:E; cbn in H; try discriminate.
    injection H as <-. apply (G d None g N); [discriminate|exact E].
  Qed.
End Merging.

(** ** Repeated times and entries without data *)

Lemma w_repeated : exists d, named d <> [] /\ Forall (fun ke => filled (snd ke)) (named d) /\
  forall arrange, (forall l, Permutation (arrange l) l) -> exists f, as_dataframe arrange d = Ok f /\
    forall ke, In ke (named d) -> length (e_time (snd ke)) = 2 /\ length (f_rows f) = 4.
Proof.
  exists tank_twice. split; [discriminate|]. split.
  { repeat constructor. }
  intros arrange H. eexists. split; [reflexivity|]. intros ke Hke. split.
  - destruct Hke as [<-|[<-|[]]]; reflexivity.
  - cbn [f_rows outer_merge]. rewrite (Permutation_length (H _)). reflexivity.
Qed.

Lemma w_unfilled : forall arrange d k e, In (k, e) d -> e_names e <> [] -> e_values e = null ->
  as_dataframe arrange d = Raise ValueError.
Proof.
  intros arrange d k e Hin Hn Hv.
  destruct (loop_runs arrange d None) as [_ L]. unfold as_dataframe. rewrite L; [reflexivity|].
  intros F. rewrite Forall_forall in F. destruct (F (k, e)) as [_ A].
  - unfold named. apply filter_In. split; [exact Hin|]. cbn [snd]. destruct (e_names e); [contradiction|reflexivity].
  - cbn [snd] in A. rewrite Hv in A. destruct (e_names e); [contradiction|discriminate].
Qed.

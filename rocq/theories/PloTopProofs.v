(** Proofs about the figures of a plot. *)
From Coq Require Import String.
From Verif Require Import Base BaseProofs ExprModel DataModel DiscModel ColEvalProofs ResModel AlrProofs PloModel PloSpec PloProofs.
Local Open Scope list_scope.
Local Open Scope nat_scope.

Lemma stands_once : forall n i r r', stands_for n i r -> stands_for n i r' -> r = r'.
Proof. intros n i r r' [A [B|B]] [C [D|D]]; lia. Qed.
Lemma stands_self : forall n r, r < n -> stands_for n (Z.of_nat r) r.
Proof. intros n r H. split; [exact H|]. left. reflexivity. Qed.

Definition named (e : entry) : Prop := e_values e = null \/ mrows (e_values e) = length (e_names e).
Definition styled (e : entry) : Prop := e_style e = "plot"%string \/ e_style e = "step"%string.
(** The line of row [r] of an entry. *)
Definition row_line (k : string) (e : entry) (r : nat) (l : line) : Prop :=
  l_entry l = k /\ l_row l = r /\ nth_error (e_names e) r = Some (l_label l) /\ l_style l = e_style e /\ l_time l = e_time e /\
  l_values l = map (fun c => nth r c 0%Q) (mcols (e_values e)) /\ r < mrows (e_values e).

Lemma style_iff : forall e, (String.eqb (e_style e) "plot" || String.eqb (e_style e) "step")%bool = true <-> styled e.
Proof. intros e. unfold styled. rewrite orb_true_iff, !String.eqb_eq. tauto. Qed.
Lemma draw_row_ok : forall k e i l, named e -> draw_row k e i = Ok l ->
    styled e /\ exists r, stands_for (length (e_names e)) i r /\ row_line k e r l.
Proof.
  intros k e i l N H. unfold draw_row in H. destruct (position (length (e_names e)) i) as [j|] eqn:Ej; [|discriminate].
  unfold at_index in H. destruct (nth_error (e_names e) j) as [label|] eqn:El; [|discriminate].
  destruct (String.eqb (e_style e) "plot" || String.eqb (e_style e) "step")%bool eqn:Es; [|discriminate].
  destruct (position (mrows (e_values e)) i) as [r|] eqn:Er; [|discriminate]. injection H as <-.
  apply style_iff in Es. split; [exact Es|]. apply position_iff in Ej. apply position_iff in Er.
  assert (j = r).
  { destruct N as [N|N]; [rewrite N in Er; destruct Er as [C _]; cbn in C; lia|]. rewrite N in Er. exact (stands_once _ _ _ _ Ej Er). }
  subst j. exists r. split; [exact Ej|]. unfold row_line. cbn. destruct Er as [L _]. tauto.
Qed.
Lemma draw_row_defined : forall k e i r, named e -> styled e -> stands_for (length (e_names e)) i r -> r < mrows (e_values e) ->
    exists l, draw_row k e i = Ok l.
Proof.
  intros k e i r N S H L. unfold draw_row. pose proof (proj2 (position_iff _ _ _) H) as ->.
  unfold at_index. destruct (nth_error (e_names e) r) as [label|] eqn:El; [|apply nth_error_None in El; destruct H; lia].
  apply style_iff in S. rewrite S. destruct N as [N|N]; [rewrite N in L; cbn in L; lia|].
  rewrite N. pose proof (proj2 (position_iff _ _ _) H) as ->. eexists. reflexivity.
Qed.

Section Plot.
  Variable re : string -> string -> res bool.
  Notation picked := (picked re).
  Notation left_of := (left_of re).

  Lemma picked_row : forall exact e a i r, picked exact e a i -> stands_for (length (e_names e)) i r -> asks_for re exact e a r.
  Proof.
    intros exact e a i r H S. destruct a as [|l]; cbn in H |- *.
    - destruct H as [n [r0 [E [L ->]]]]. exists n. split; [exact E|]. destruct S as [S1 [S2|S2]]; lia.
    - destruct H as [H|[s [r0 [H1 [H2 ->]]]]]; [left; exists i; tauto|]. right. exists s. split; [exact H1|].
      assert (r = r0) by (destruct S as [S1 [S2|S2]]; lia). subst r0. exact H2.
  Qed.
  Lemma names_row_less : forall exact names s r, names_row re exact names s r -> r < length names.
  Proof.
    intros exact names s r H. unfold names_row in H. destruct exact; [exact (first_less _ _ _ H)|].
    destruct H as [[n [_ H]]|[_ H]]; exact (first_less _ _ _ H).
  Qed.
  Lemma row_picked : forall exact e a r, asks_for re exact e a r ->
      exists i, picked exact e a i /\ (forall r', stands_for (length (e_names e)) i r' -> r' = r).
  Proof.
    intros exact e a r H. destruct a as [|l]; cbn in H |- *.
    - destruct H as [n [E L]]. exists (Z.of_nat r). split; [exists n, r; tauto|]. intros r' [S1 [S2|S2]]; lia.
    - destruct H as [[i [H1 H2]]|[s [H1 H2]]].
      + exists i. split; [left; exact H1|]. intros r' H. exact (stands_once _ _ _ _ H H2).
      + exists (Z.of_nat r). split; [right; exists s, r; tauto|]. intros r' [S1 [S2|S2]]; lia.
  Qed.

  (** ** One figure *)

  Lemma draw_ok : forall exact d, labelled d -> forall request rest ls, draw re exact d request = (rest, Ok ls) ->
      (forall l, In l ls -> exists k a e r, In (k, a) request /\ look k d = Some e /\ asks_for re exact e a r /\ row_line k e r l) /\
      (forall k a e r, In (k, a) request -> look k d = Some e -> asks_for re exact e a r -> exists l, In l ls /\ row_line k e r l) /\
      Forall2 (fun old new => fst new = fst old /\ exists e, look (fst old) d = Some e /\ snd new = left_of exact e (snd old)) request rest.
  Proof.
    intros exact d N. induction request as [|[k a] request IH]; intros rest ls H; cbn [draw] in H.
    - injection H as <- <-. split; [intros l []|]. split; [intros k a e r []|constructor].
    - destruct (look k d) as [e|] eqn:Ek; [|discriminate]. destruct (rows_of re exact e a) as [a' [is|x]] eqn:Er; [|discriminate].
      destruct (res_map (draw_row k e) is) as [ls1|x] eqn:Em; [|discriminate].
      destruct (draw re exact d request) as [rest' [ms|x]] eqn:Ed; [|discriminate]. injection H as <- <-.
      destruct (IH _ _ eq_refl) as [I1 [I2 I3]]. destruct (rows_ok re _ _ _ _ _ Er) as [R1 [R2 _]].
      destruct (res_map_in _ _ _ Em) as [M1 M2]. pose proof (N k e Ek) as Ne. split; [|split].
      + intros l Hl. apply in_app_iff in Hl. destruct Hl as [Hl|Hl].
        * apply M1 in Hl. destruct Hl as [i [Hi Hr]]. destruct (draw_row_ok _ _ _ _ Ne Hr) as [_ [r [S L]]].
          exists k, a, e, r. split; [left; reflexivity|]. split; [exact Ek|]. split; [|exact L]. exact (picked_row _ _ _ i r (proj1 (R2 i) Hi) S).
        * destruct (I1 l Hl) as [k' [a0 [e' [r [A [B [C D]]]]]]]. exists k', a0, e', r. split; [right; exact A|]. tauto.
      + intros k' a0 e' r [A|A] B C.
        * injection A as <- <-. assert (e' = e) by congruence. subst e'. destruct (row_picked _ _ _ _ C) as [i [P Q]].
          apply R2 in P. destruct (M2 i P) as [l Hl]. exists l. split; [apply in_app_iff; left; apply M1; exists i; tauto|].
          destruct (draw_row_ok _ _ _ _ Ne Hl) as [_ [r' [S L]]]. rewrite (Q r' S) in L. exact L.
        * destruct (I2 k' a0 e' r A B C) as [l [L1 L2]]. exists l. split; [apply in_app_iff; right; exact L1|exact L2].
      + constructor; [|exact I3]. cbn. split; [reflexivity|]. exists e. split; [exact Ek|exact R1].
  Qed.

  Lemma found_of : forall exact d request rest ls, labelled d -> draw re exact d request = (rest, Ok ls) -> drawable re exact d request.
  Proof.
    intros exact d request. induction request as [|[k a] request IH]; intros rest ls N H k' a' Hin; [destruct Hin|]. cbn [draw] in H.
    destruct (look k d) as [e|] eqn:Ek; [|discriminate]. destruct (rows_of re exact e a) as [a1 [is|x]] eqn:Er; [|discriminate].
    destruct (res_map (draw_row k e) is) as [ls1|x] eqn:Em; [|discriminate].
    destruct (draw re exact d request) as [rest' [ms|x]] eqn:Ed; [|discriminate]. injection H as <- <-.
    destruct Hin as [Hin|Hin]; [|exact (IH _ _ N eq_refl k' a' Hin)]. injection Hin as <- <-.
    destruct (rows_ok re _ _ _ _ _ Er) as [_ [R2 [R3 _]]]. destruct (res_map_in _ _ _ Em) as [_ M2]. pose proof (N k e Ek) as Ne.
    assert (Q : forall i, picked exact e a i -> styled e /\ exists r, stands_for (length (e_names e)) i r /\ r < mrows (e_values e)).
    { intros i P. apply R2 in P. destruct (M2 i P) as [l Hl]. destruct (draw_row_ok _ _ _ _ Ne Hl) as [S [r [A B]]].
      split; [exact S|]. exists r. split; [exact A|]. unfold row_line in B. tauto. }
    exists e. split; [exact Ek|]. destruct a as [|l].
    - cbn [found nothing]. unfold rows_of in Er. destruct (e_size e) as [n|] eqn:En; [|discriminate]. split.
      + exists n. split; [reflexivity|]. destruct n as [|n]; [lia|]. destruct (Q (Z.of_nat n)) as [_ [r [[L S] B]]]; [exists (S n), n; repeat split; [exact En|lia]|]. lia.
      + destruct n as [|n]; [right; right; reflexivity|]. destruct (Q (Z.of_nat n)) as [S _]; [exists (Datatypes.S n), n; repeat split; [exact En|lia]|].
        destruct S as [S|S]; tauto.
    - cbn [found nothing]. split; [split; [|split]|].
      + intros i Hi. destruct (Q i (or_introl Hi)) as [_ G]. exact G.
      + intros s Hs. exact (R3 l s eq_refl Hs).
      + intros [s Hs] C. destruct (R3 l s eq_refl Hs) as [r Hr]. destruct (Q (Z.of_nat r)) as [_ [r' [_ B]]]; [right; exists s, r; tauto|].
        rewrite C in B. cbn in B. lia.
      + destruct l as [|[i|s] l]; [tauto| |].
        * destruct (Q i (or_introl (or_introl eq_refl))) as [S _]. destruct S; tauto.
        * destruct (R3 (Text s :: l) s eq_refl (or_introl eq_refl)) as [r Hr].
          destruct (Q (Z.of_nat r)) as [S _]; [right; exists s, r; split; [left; reflexivity|tauto]|]. destruct S; tauto.
  Qed.
  Lemma draw_defined : forall exact d request, labelled d -> drawable re exact d request ->
      (exact = false -> forall k a e, In (k, a) request -> look k d = Some e -> defined re e a) ->
      exists rest ls, draw re exact d request = (rest, Ok ls).
  Proof.
    intros exact d request N. induction request as [|[k a] request IH]; intros H D; cbn [draw]; [eexists _, _; reflexivity|].
    destruct (H k a (or_introl eq_refl)) as [e [Ek [Hf Hs]]]. rewrite Ek. pose proof (N k e Ek) as Ne.
    destruct (rows_defined re exact e a) as [is Er].
    { intros E. exact (D E k a e (or_introl eq_refl) Ek). }
    { destruct a as [|l]; cbn [found] in Hf; [destruct Hf as [n [-> _]]; discriminate|tauto]. }
    rewrite Er. destruct (rows_ok re _ _ _ _ _ Er) as [_ [R2 _]].
    destruct (res_map_of _ _ (draw_row k e) is) as [ls1 Els].
    { intros i Hi. apply R2 in Hi.
      assert (G : styled e /\ exists r, stands_for (length (e_names e)) i r /\ r < mrows (e_values e)).
      { assert (T : styled e) by (destruct Hs as [Hs|[Hs|Hs]]; [left; exact Hs|right; exact Hs|];
          destruct a as [|l]; cbn in Hs, Hi; [destruct Hi as [n [r [E [L _]]]]; rewrite Hs in E; injection E as <-; lia|subst l; destruct Hi as [[]|[s [r [[] _]]]]]).
        split; [exact T|]. destruct a as [|l]; cbn in Hf, Hi.
        - destruct Hi as [n [r [E [L ->]]]], Hf as [m [E' [L1 L2]]]. assert (m = n) by congruence. subst m.
          exists r. split; [apply stands_self; lia|lia].
        - destruct Hf as [F1 [F2 F3]]. destruct Hi as [Hi|[s [r [H1 [H2 ->]]]]]; [exact (F1 i Hi)|].
          pose proof (names_row_less _ _ _ _ H2) as L. exists r. split; [apply stands_self; exact L|].
          destruct Ne as [Ne|Ne]; [destruct (F3 (ex_intro _ s H1)); exact Ne|rewrite Ne; exact L]. }
      destruct G as [S [r [A B]]]. exact (draw_row_defined k e i r Ne S A B). }
    rewrite Els. destruct IH as [rest [ls Ed]].
    - intros k' a' Hin. apply H. right. exact Hin.
    - intros E k' a' e' Hin. exact (D E k' a' e' (or_intror Hin)).
    - rewrite Ed. eexists _, _. reflexivity.
  Qed.

  (** ** All figures *)

  Lemma figure_ok : forall figures k f, figure_of figures k = Ok f -> f = Numbered k /\ (forall fs, figures = Some fs -> k <= length fs).
  Proof.
    intros figures k f H. unfold figure_of in H. destruct figures as [fs|]; [|injection H as <-; split; [reflexivity|discriminate]].
    destruct (length fs <? k) eqn:E.
    - apply Nat.ltb_lt in E. unfold at_index in H. destruct (nth_error fs k) eqn:En; [|discriminate].
      assert (k < length fs) by (apply nth_error_Some; congruence). lia.
    - apply Nat.ltb_ge in E. injection H as <-. split; [reflexivity|]. intros g Eg. injection Eg as <-. exact E.
  Qed.
  Lemma figure_defined : forall figures k, (forall fs, figures = Some fs -> k <= length fs) -> figure_of figures k = Ok (Numbered k).
  Proof.
    intros figures k H. unfold figure_of. destruct figures as [fs|]; [|reflexivity].
    pose proof (H fs eq_refl) as L. apply Nat.ltb_ge in L. rewrite L. reflexivity.
  Qed.
  Lemma from_ok : forall exact d figures requests k rest out, draw_from re exact d figures k requests = (rest, Ok out) ->
      length rest = length requests /\ length out = length requests /\
      (forall j request, nth_error requests j = Some request -> exists r' ls, nth_error rest j = Some r' /\
         nth_error out j = Some (Numbered (k + j), ls) /\ draw re exact d request = (r', Ok ls)) /\
      (forall fs, figures = Some fs -> requests <> [] -> k + length requests <= S (length fs)).
  Proof.
    intros exact d figures. induction requests as [|r requests IH]; intros k rest out H; cbn [draw_from] in H.
    - injection H as <- <-. split; [reflexivity|]. split; [reflexivity|]. split; [intros [|j] q E; discriminate|]. intros fs _ C. destruct C. reflexivity.
    - destruct (figure_of figures k) as [f|x] eqn:Ef; [|discriminate]. destruct (draw re exact d r) as [r' [ls|x]] eqn:Ed; [|discriminate].
      destruct (draw_from re exact d figures (S k) requests) as [rest' [out'|x]] eqn:E; [|discriminate]. injection H as <- <-.
      destruct (figure_ok _ _ _ Ef) as [-> Hk]. destruct (IH _ _ _ E) as [L1 [L2 [I1 I2]]].
      split; [cbn; lia|]. split; [cbn; lia|]. split.
      + intros [|j] q Hq; cbn [nth_error] in Hq |- *.
        * injection Hq as <-. exists r', ls. rewrite Nat.add_0_r. tauto.
        * destruct (I1 j q Hq) as [r1 [ls1 G]]. exists r1, ls1. replace (k + S j) with (S k + j) by lia. exact G.
      + intros fs Hf _. specialize (Hk fs Hf). cbn [length]. destruct requests as [|q requests]; [cbn; lia|].
        specialize (I2 fs Hf ltac:(discriminate)). cbn [length] in I2 |- *. lia.
  Qed.
  Lemma from_defined : forall exact d figures requests k,
      (forall request, In request requests -> exists r' ls, draw re exact d request = (r', Ok ls)) ->
      (forall fs, figures = Some fs -> k + length requests <= S (length fs)) ->
      exists rest out, draw_from re exact d figures k requests = (rest, Ok out).
  Proof.
    intros exact d figures. induction requests as [|r requests IH]; intros k H Hf; cbn [draw_from]; [eexists _, _; reflexivity|].
    rewrite figure_defined by (intros fs E; specialize (Hf fs E); cbn [length] in Hf; lia).
    destruct (H r (or_introl eq_refl)) as [r' [ls ->]]. destruct (IH (S k)) as [rest [out ->]].
    - intros q Hq. apply H. right. exact Hq.
    - intros fs E. specialize (Hf fs E). cbn [length] in Hf. lia.
    - eexists _, _. reflexivity.
  Qed.

  Lemma plot_is : forall exact d figures requests rest out, plot re exact d figures requests = (rest, Ok out) ->
      exists rest', draw_from re exact d figures 0 (plots requests) = (rest', Ok out) /\ (requests <> [] -> rest' = rest).
  Proof.
    intros exact d figures requests rest out H. unfold plot in H. destruct requests as [|r requests]; cbn [plots].
    - destruct (draw_from re exact d figures 0 by_default) as [rest' x] eqn:E. injection H as <- H. cbn [snd] in H. subst x.
      exists rest'. split; [exact E|]. intros C. destruct C. reflexivity.
    - exists rest. split; [exact H|reflexivity].
  Qed.

  Lemma w_lines : forall exact d figures requests rest out, labelled d -> plot re exact d figures requests = (rest, Ok out) ->
      length out = length (plots requests) /\
      forall j request f ls, nth_error (plots requests) j = Some request -> nth_error out j = Some (f, ls) ->
        f = Numbered j /\
        (forall l, In l ls -> exists k r, shows d k r l) /\
        forall k r, (exists l, In l ls /\ shows d k r l) <-> (exists a e, In (k, a) request /\ look k d = Some e /\ asks_for re exact e a r).
  Proof.
    intros exact d figures requests rest out N H. destruct (plot_is _ _ _ _ _ _ H) as [rest' [E _]].
    destruct (from_ok _ _ _ _ _ _ _ E) as [_ [L2 [I1 _]]]. split; [exact L2|]. intros j request f ls Hr Ho.
    destruct (I1 j request Hr) as [r' [ls' [_ [Ho' Hd]]]]. rewrite Ho in Ho'. injection Ho' as -> <-. split; [reflexivity|].
    destruct (draw_ok _ _ N _ _ _ Hd) as [D1 [D2 _]]. split.
    - intros l Hl. destruct (D1 l Hl) as [k [a [e [r [A [B [C D]]]]]]]. exists k, r. unfold row_line in D. unfold shows. split; [tauto|]. split; [tauto|]. exists e. tauto.
    - intros k r. split.
      + intros [l [Hl [S1 [S2 _]]]]. destruct (D1 l Hl) as [k' [a [e [r0 [A [B [C D]]]]]]]. destruct D as [D1' [D2' _]].
        rewrite D1' in S1. rewrite D2' in S2. subst k' r0. exists a, e. tauto.
      + intros [a [e [A [B C]]]]. destruct (D2 k a e r A B C) as [l [Hl L]]. exists l. split; [exact Hl|].
        unfold row_line in L. unfold shows. split; [tauto|]. split; [tauto|]. exists e. tauto.
  Qed.

  Lemma w_accepted : forall exact d figures requests, labelled d -> requests <> [] ->
      (exact = false -> forall request k a e, In request requests -> In (k, a) request -> look k d = Some e -> defined re e a) ->
      ((exists rest out, plot re exact d figures requests = (rest, Ok out)) <->
       Forall (drawable re exact d) requests /\ forall fs, figures = Some fs -> length requests <= S (length fs)).
  Proof.
    intros exact d figures requests N Hn D.
    assert (A : plots requests = requests) by (destruct requests; [destruct Hn; reflexivity|reflexivity]).
    split.
    - intros [rest [out H]]. destruct (plot_is _ _ _ _ _ _ H) as [rest' [E _]]. rewrite A in E.
      destruct (from_ok _ _ _ _ _ _ _ E) as [_ [_ [I1 I2]]]. split.
      + apply Forall_forall. intros request Hr. apply In_nth_error in Hr. destruct Hr as [j Hj]. destruct (I1 j request Hj) as [r' [ls [_ [_ Hd]]]].
        exact (found_of _ _ _ _ _ N Hd).
      + intros fs Hf. specialize (I2 fs Hf Hn). exact I2.
    - intros [Hd Hf]. rewrite Forall_forall in Hd. destruct (from_defined exact d figures requests 0) as [rest [out E]].
      + intros request Hr. apply draw_defined; [exact N|exact (Hd request Hr)|]. intros Ex k a e. exact (D Ex request k a e Hr).
      + intros fs E. specialize (Hf fs E). exact Hf.
      + exists rest, out. unfold plot. destruct requests; [destruct Hn; reflexivity|exact E].
  Qed.

  Lemma left_ok : forall e l, defined re e (Chosen l) -> left_over re (e_names e) l (filter (stays re (e_names e)) l).
  Proof.
    intros e l D. exists (stays re (e_names e)). split; [reflexivity|]. split; [reflexivity|].
    intros s Hs. split; [apply stays_text|apply text_stays].
  Qed.
  Lemma w_left : forall d figures requests rest out, labelled d -> plot re false d figures requests = (rest, Ok out) ->
      Forall2 (Forall2 (left_asked re d)) requests rest.
  Proof.
    intros d figures requests rest out N H. destruct requests as [|r0 requests].
    { unfold plot in H. destruct (draw_from re false d figures 0 by_default). injection H as <- _. constructor. }
    destruct (plot_is _ _ _ _ _ _ H) as [rest' [E Er]]. specialize (Er ltac:(discriminate)). subst rest'. cbn [plots] in E.
    clear H. remember (r0 :: requests) as rs eqn:Q. clear Q r0 requests. revert E. generalize 0 as k. revert rest out. induction rs as [|r rs IH]; intros rest out k E; cbn [draw_from] in E.
    - injection E as <- _. constructor.
    - destruct (figure_of figures k) as [f|x]; [|discriminate]. destruct (draw re false d r) as [r' [ls|x]] eqn:Ed; [|discriminate].
      destruct (draw_from re false d figures (S k) rs) as [rest' [out'|x]] eqn:E'; [|discriminate]. injection E as <- <-. constructor; [|exact (IH _ _ _ E')].
      clear IH E' f. revert r' ls Ed. induction r as [|[key a] r IH]; intros r' ls Ed; cbn [draw] in Ed; [injection Ed as <- _; constructor|].
      destruct (look key d) as [e|] eqn:Ek; [|discriminate]. destruct (rows_of re false e a) as [a' [is|x]] eqn:Er; [|discriminate].
      destruct (res_map (draw_row key e) is) as [ls1|x] eqn:Em; [|discriminate].
      destruct (draw re false d r) as [r1 [ms|x]] eqn:Ed'; [|discriminate]. injection Ed as <- <-. constructor; [|exact (IH _ _ eq_refl)].
      destruct (rows_ok re _ _ _ _ _ Er) as [-> [_ [_ R4]]]. unfold left_asked. cbn [fst snd]. split; [reflexivity|].
      destruct a as [|l]; cbn [PloProofs.left_of]; [exact I|]. exists e. split; [exact Ek|]. apply left_ok. exact (R4 eq_refl).
  Qed.
  Lemma rows_exact : forall e a, fst (rows_of re true e a) = a.
  Proof.
    intros e a. unfold rows_of, cret. destruct a as [|l]; [reflexivity|]. destruct (res_map (name_position (e_names e)) (texts l ++ [])); reflexivity.
  Qed.
  Lemma draw_exact : forall d request, fst (draw re true d request) = request.
  Proof.
    intros d. induction request as [|[k a] request IH]; cbn [draw]; [reflexivity|]. destruct (look k d) as [e|]; [|reflexivity].
    pose proof (rows_exact e a) as R. destruct (rows_of re true e a) as [a' [is|x]]; cbn [fst] in R; subst a'; [|reflexivity].
    destruct (res_map (draw_row k e) is); [|reflexivity]. destruct (draw re true d request) as [rest [ms|x]]; cbn [fst] in IH |- *; subst rest; reflexivity.
  Qed.
  Lemma w_exact : forall d figures requests, fst (plot re true d figures requests) = requests.
  Proof.
    intros d figures requests. unfold plot. destruct requests as [|r requests]; [reflexivity|]. generalize (r :: requests). generalize 0 as k. intros k l. revert k.
    induction l as [|q l IH]; intros k; cbn [draw_from]; [reflexivity|]. destruct (figure_of figures k); [|reflexivity].
    pose proof (draw_exact d q) as D. destruct (draw re true d q) as [q' [ls|x]]; cbn [fst] in D; subst q'; [|reflexivity].
    specialize (IH (S k)). destruct (draw_from re true d figures (S k) l) as [rest [out|x]]; cbn [fst] in IH |- *; subst rest; reflexivity.
  Qed.
  Lemma w_figures : forall exact d fs requests rest out, plot re exact d (Some fs) requests = (rest, Ok out) ->
      plot re exact d None requests = (rest, Ok out) /\ forall f ls n, In (f, ls) out -> f <> Given n.
  Proof.
    intros exact d fs requests rest out H.
    assert (G : forall l k r o, draw_from re exact d (Some fs) k l = (r, Ok o) ->
        draw_from re exact d None k l = (r, Ok o) /\ forall f ls n, In (f, ls) o -> f <> Given n).
    { induction l as [|q l IH]; intros k r o E; cbn [draw_from] in E |- *; [injection E as <- <-; split; [reflexivity|intros f ls n []]|].
      destruct (figure_of (Some fs) k) as [f|x] eqn:Ef; [|discriminate]. destruct (figure_ok _ _ _ Ef) as [-> _].
      cbn [figure_of]. destruct (draw re exact d q) as [q' [ls|x]]; [|discriminate].
      destruct (draw_from re exact d (Some fs) (S k) l) as [r1 [o1|x]] eqn:E1; [|discriminate]. injection E as <- <-.
      destruct (IH _ _ _ E1) as [-> I2]. split; [reflexivity|]. intros f ms n [C|C]; [injection C as <- <-; discriminate|exact (I2 f ms n C)]. }
    unfold plot in H |- *. destruct requests as [|r requests]; [|exact (G _ _ _ _ H)].
    destruct (draw_from re exact d (Some fs) 0 by_default) as [r1 o1] eqn:E. injection H as <- H. cbn [snd] in H. subst o1.
    destruct (G _ _ _ _ E) as [-> I2]. split; [reflexivity|exact I2].
  Qed.
End Plot.

(** ** The example *)

Definition chosen_rows : list drawing := [[("x"%string, Chosen [Text "h_"; Index (-1)])]; [("u"%string, Everything)]].
Lemma levels_labelled : labelled levels_data.
Proof.
  intros k e H. unfold look, levels_data in H. cbn in H.
  destruct (String.eqb k "x"); [injection H as <-; right; reflexivity|]. destruct (String.eqb k "u"); [injection H as <-; right; reflexivity|discriminate].
Qed.
Lemma levels_defined : forall request k a e, In request chosen_rows -> In (k, a) request -> look k levels_data = Some e -> defined begins e a.
Proof. intros request k a e _ _ _. destruct a as [|l]; [exact I|]. intros s n _ _. eexists. reflexivity. Qed.
Lemma w_levels : labelled levels_data /\
    match plot begins false levels_data None chosen_rows with
    | (rest, Ok out) => map (fun p => (fst p, map (fun l => (l_label l, l_row l, l_values l)) (snd p))) out
          = [(Numbered 0, [("flow", 2, [3; 6]%Q); ("h_1", 0, [1; 4]%Q); ("h_2", 1, [2; 5]%Q)]%string); (Numbered 1, [("pump", 0, [7]%Q)]%string)] /\
        rest = [[("x"%string, Chosen [Index (-1)])]; [("u"%string, Everything)]]
    | _ => False
    end.
Proof. split; [exact levels_labelled|]. vm_compute. split; reflexivity. Qed.
Lemma w_twice : exists re d requests rest out, labelled d /\ plot re false d None requests = (rest, Ok out) /\
    exists rest' out', plot re false d None rest = (rest', Ok out') /\
    map (fun p => length (snd p)) out = [2] /\ map (fun p => length (snd p)) out' = [0].
Proof.
  exists begins, levels_data, [[("x"%string, Chosen [Text "h_"%string])]].
  eexists _, _. split; [exact levels_labelled|]. split; [vm_compute; reflexivity|]. eexists _, _. split; [vm_compute; reflexivity|]. split; reflexivity.
Qed.
Lemma w_given : exists re d fs requests rest out, labelled d /\ length requests = length fs /\
    plot re false d (Some fs) requests = (rest, Ok out) /\ map fst out = [Numbered 0; Numbered 1].
Proof.
  exists begins, levels_data, [8; 9], [[("x"%string, Everything)]; [("u"%string, Everything)]].
  eexists _, _. split; [exact levels_labelled|]. split; [reflexivity|]. split; vm_compute; reflexivity.
Qed.
Lemma w_too_few : exists re d fs requests, labelled d /\ fs <> [] /\ Forall (drawable re false d) requests /\
    snd (plot re false d (Some fs) requests) = Raise IndexError.
Proof.
  exists begins, levels_data, [8], [[("x"%string, Everything)]; [("u"%string, Everything)]; [("u"%string, Everything)]].
  split; [exact levels_labelled|]. split; [discriminate|]. split; [|reflexivity].
  assert (G : drawable begins false levels_data [("u"%string, Everything)]).
  { intros k a [E|[]]. injection E as <- <-. eexists. split; [reflexivity|]. split; [exists 1; cbn; repeat split; lia|]. right. left. reflexivity. }
  constructor; [|constructor; [exact G|constructor; [exact G|constructor]]].
  intros k a [E|[]]. injection E as <- <-. eexists. split; [reflexivity|]. split; [exists 3; cbn; repeat split; lia|]. left. reflexivity.
Qed.

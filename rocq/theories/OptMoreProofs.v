(** Further proofs for the solver options: what holds in all histories. *)
From Coq Require Import String Lia.
From Verif Require Import Base BaseProofs OptModel OptSpec OptProofs.
Local Open Scope list_scope.
Local Open Scope nat_scope.

Section All.
  Variable V : Type.
  Notation table := (dict string V).
  Implicit Types (w : world V) (c : call V) (d : table).

  Record sound (w : world V) : Prop := mkSound
    { so_two : 1 < length (w_heap w);
      so_dicts : forall k l, nth_error (w_dicts w) k = Some l -> l < length (w_heap w);
      so_methods : forall i m, nth_error (w_methods w) i = Some m -> me_opts m < length (w_heap w);
      so_created : forall i m j, nth_error (w_methods w) i = Some m -> me_problem m = Some j -> j < length (w_problems w);
      so_problems : forall j p, nth_error (w_problems w) j = Some p -> pr_opts p < length (w_heap w) }.

  (** What a step may do to methods and problems. *)
  Lemma place_sound : forall w n, sound w ->
      (exists l, place V n w = (w, Ok l) /\ l < length (w_heap w)) \/ place V n w = (w, Raise IndexError).
  Proof.
    intros w n S0. destruct n as [|i|j|k]; cbn [place].
    - left. exists config_place. split; [reflexivity|]. apply (so_two w S0).
    - unfold cbind, lookup. destruct (nth_error (w_methods w) i) as [m|] eqn:E; [left|right; reflexivity].
      exists (me_opts m). split; [reflexivity|]. eapply so_methods; eassumption.
    - unfold cbind, lookup. destruct (nth_error (w_problems w) j) as [p|] eqn:E; [left|right; reflexivity].
      exists (pr_opts p). split; [reflexivity|]. eapply so_problems; eassumption.
    - unfold lookup. destruct (nth_error (w_dicts w) k) as [l|] eqn:E; [left|right; reflexivity].
      exists l. split; [reflexivity|]. eapply so_dicts; eassumption.
  Qed.

  (** Places are found, and at most one dictionary is made. *)
  Definition grown w w' : Prop :=
    w_dicts w' = w_dicts w /\ w_methods w' = w_methods w /\ w_problems w' = w_problems w /\
    (w_heap w' = w_heap w \/ exists d, w_heap w' = w_heap w ++ [d]).
  Lemma grown_sound : forall w w', sound w -> grown w w' -> sound w'.
  Proof.
    intros w w' [H1 H2 H3 H4 H5] (E1 & E2 & E3 & E4).
    assert (L : length (w_heap w) <= length (w_heap w')) by (destruct E4 as [->|[d ->]]; [lia|rewrite app_length; lia]).
    constructor; rewrite ?E1, ?E2, ?E3; intros.
    - lia.
    - eapply Nat.lt_le_trans; [eapply H2; eassumption|exact L].
    - eapply Nat.lt_le_trans; [eapply H3; eassumption|exact L].
    - eapply H4; eassumption.
    - eapply Nat.lt_le_trans; [eapply H5; eassumption|exact L].
  Qed.
  Lemma place_of_sound : forall w g w' r, sound w -> place_of V g w = (w', r) ->
      grown w w' /\ (r = Raise IndexError \/ exists l, r = Ok l /\ l < length (w_heap w')).
  Proof.
    intros w g w' r S0 E. destruct g as [d|n]; cbn [place_of] in E.
    - unfold make in E. injection E as <- <-. split.
      + repeat split; try reflexivity. right. exists d. reflexivity.
      + right. eexists. split; [reflexivity|]. cbn. rewrite app_length. cbn. lia.
    - destruct (place_sound w n S0) as [(l & El & Hl)|El]; rewrite El in E; injection E as <- <-.
      + split; [repeat split; try reflexivity; left; reflexivity|]. right. eauto.
      + split; [repeat split; try reflexivity; left; reflexivity|]. left. reflexivity.
  Qed.
  Lemma place_or_sound : forall def w g w' r, sound w -> def <= 1 -> place_or V def g w = (w', r) ->
      grown w w' /\ (r = Raise IndexError \/ exists l, r = Ok l /\ l < length (w_heap w')).
  Proof.
    intros def w g w' r S0 Hd E. destruct g as [g|]; cbn [place_or] in E; [eapply place_of_sound; eassumption|].
    unfold cret in E. injection E as <- <-. split; [repeat split; try reflexivity; left; reflexivity|].
    right. exists def. split; [reflexivity|]. pose proof (so_two w S0). lia.
  Qed.

  Definition same_but (w w' : world V) : Prop :=
    (forall j p, nth_error (w_problems w) j = Some p -> exists p', nth_error (w_problems w') j = Some p' /\
        (forall d, pr_solver p = Some d -> pr_solver p' = Some d)).

  (** One step: the state stays sound, solvers are kept, and methods keep their options and
      problems unless they are assigned or created. *)
  Definition created (c : call V) (i : nat) : Prop := c = ACreate i.
  Record follows (c : call V) (w w' : world V) : Prop := mkFollows
    { fo_sound : sound w';
      fo_heap : length (w_heap w) <= length (w_heap w');
      fo_solver : forall j p d, nth_error (w_problems w) j = Some p -> pr_solver p = Some d ->
        exists p', nth_error (w_problems w') j = Some p' /\ pr_solver p' = Some d;
      fo_options : forall i m, nth_error (w_methods w) i = Some m -> exists m', nth_error (w_methods w') i = Some m' /\
        (~ assigns_method i c -> me_opts m' = me_opts m) /\
        (forall j, me_problem m = Some j -> c <> ACreate i -> me_problem m' = Some j) }.

  Lemma follows_same : forall c w w', sound w' -> length (w_heap w) <= length (w_heap w') ->
      w_methods w' = w_methods w -> w_problems w' = w_problems w -> follows c w w'.
  Proof.
    intros c w w' S0 L Em Ep. constructor; [exact S0|exact L| |].
    - intros j p d E Es. exists p. rewrite Ep. auto.
    - intros i m E. exists m. rewrite Em. auto.
  Qed.

  Lemma solve_problem_follows : forall c w j w' r, sound w -> solve_problem V j w = (w', r) -> follows c w w' /\ w_methods w' = w_methods w /\
      length (w_problems w') = length (w_problems w).
  Proof.
    intros c w j w' r S0 E. unfold solve_problem, cbind, lookup in E. destruct (nth_error (w_problems w) j) as [p|] eqn:Ej.
    2:{ injection E as <- <-. split; [apply follows_same; auto|auto]. }
    destruct (pr_solver p) as [d|] eqn:Es.
    - cbn in E. injection E as <- <-. split; [apply follows_same; auto|auto].
    - unfold cmodify, cret in E. injection E as <- <-. cbn [w_methods set_problems]. pose proof (some_lt _ _ _ _ Ej) as L.
      split; [|split; [reflexivity|cbn; apply put_at_length; exact L]].
      destruct S0 as [H1 H2 H3 H4 H5]. constructor.
      + constructor; cbn [w_heap w_dicts w_methods w_problems set_problems]; try assumption.
        * intros i m q E Eq. rewrite put_at_length by exact L. eapply H4; eassumption.
        * intros q p' Eq. rewrite put_at_at in Eq by exact L. destruct (Nat.eqb j q); [|eapply H5; exact Eq].
          injection Eq as <-. cbn. eapply H5. exact Ej.
      + cbn. lia.
      + intros q p' d Eq Ed. cbn [w_problems set_problems]. rewrite put_at_at by exact L. destruct (Nat.eqb_spec j q) as [->|].
        * exfalso. congruence.
        * eauto.
      + intros i m E. exists m. cbn. auto.
  Qed.

  Lemma create_follows : forall c w i w' r, sound w -> create V i w = (w', r) ->
      (c = ACreate i \/ forall m, nth_error (w_methods w) i = Some m -> me_problem m = None) -> follows c w w' /\
      (forall m, nth_error (w_methods w) i = Some m -> r = Ok (length (w_problems w)) /\
         nth_error (w_methods w') i = Some (mkMeth (me_opts m) (Some (length (w_problems w)))) /\
         nth_error (w_problems w') (length (w_problems w)) = Some (mkProb (me_opts m) None) /\ w_heap w' = w_heap w).
  Proof.
    intros c w i w' r S0 E Hc. unfold create, new_problem, place_or, set_problem_opts, lookup, cbind, cmodify, cret in E.
    destruct (nth_error (w_methods w) i) as [m|] eqn:Em.
    2:{ injection E as <- <-. split; [apply follows_same; auto|discriminate]. }
    cbn [w_heap w_dicts w_methods w_problems set_problems] in E.
    rewrite nth_error_app2, Nat.sub_diag in E by lia. cbn [nth_error pr_solver] in E. injection E as <- <-.
    pose proof (some_lt _ _ _ _ Em) as L.
    assert (Ep : forall a b : prob V, put_at (length (w_problems w)) a (w_problems w ++ [b]) = w_problems w ++ [a]).
    { intros a b. unfold put_at. rewrite firstn_app, Nat.sub_diag, firstn_all, skipn_all2 by (rewrite app_length; cbn; lia). cbn. rewrite app_nil_r. reflexivity. }
    destruct S0 as [H1 H2 H3 H4 H5]. split.
    - constructor.
      + constructor; cbn [w_heap w_dicts w_methods w_problems set_problems set_methods]; rewrite ?Ep; try assumption.
        * intros q m' Eq. rewrite put_at_at in Eq by exact L. destruct (Nat.eqb i q); [|eapply H3; exact Eq].
          injection Eq as <-. cbn. eapply H3. exact Em.
        * intros q m' j Eq Ej. rewrite app_length. cbn [length]. rewrite put_at_at in Eq by exact L. destruct (Nat.eqb i q).
          -- injection Eq as <-. cbn in Ej. injection Ej as <-. lia.
          -- specialize (H4 q m' j Eq Ej). lia.
        * intros j p Ej. destruct (Nat.lt_ge_cases j (length (w_problems w))) as [Lj|Lj].
          -- rewrite nth_error_app1 in Ej by exact Lj. eapply H5. exact Ej.
          -- rewrite nth_error_app2 in Ej by exact Lj. destruct (j - length (w_problems w)) as [|[|n]]; cbn in Ej; try discriminate.
             injection Ej as <-. cbn. eapply H3. exact Em.
      + cbn. lia.
      + intros j p d Ej Es. cbn [w_problems set_problems set_methods]. rewrite Ep. exists p.
        rewrite nth_error_app1 by (eapply some_lt; exact Ej). auto.
      + intros q m' Eq. cbn [w_methods set_problems set_methods]. rewrite put_at_at by exact L. destruct (Nat.eqb_spec i q) as [->|Hq].
        * eexists. split; [reflexivity|]. cbn. assert (m' = m) by congruence. subst m'. split; [reflexivity|].
          intros j Ej Hn. destruct Hc as [Hc|Hc]; [contradiction|]. rewrite (Hc m eq_refl) in Ej. discriminate.
        * exists m'. auto.
    - intros m' Em'. injection Em' as <-. split; [reflexivity|]. cbn [w_heap w_methods w_problems set_methods set_problems].
      rewrite put_at_at, Nat.eqb_refl by exact L. split; [reflexivity|]. rewrite Ep, nth_error_app2, Nat.sub_diag by lia. split; reflexivity.
  Qed.

  Lemma solve_method_follows : forall c w i w' r, sound w -> solve_method V i w = (w', r) -> follows c w w'.
  Proof.
    intros c w i w' r S0 E. unfold solve_method, cbind, lookup in E. destruct (nth_error (w_methods w) i) as [m|] eqn:Em.
    2:{ injection E as <- <-. apply follows_same; auto. }
    destruct (me_problem m) as [j|] eqn:Ej.
    - cbn [cret] in E. eapply (solve_problem_follows c w j). exact S0. exact E.
    - destruct (create V i w) as [w1 r1] eqn:E1. destruct (create_follows c w i w1 r1 S0 E1) as [F1 D1].
      { right. intros m' Em'. congruence. }
      destruct (D1 m Em) as (-> & Em1 & Ep1 & Eh). destruct (solve_problem_follows c w1 (length (w_problems w)) w' r (fo_sound _ _ _ F1) E) as (F2 & E2 & E3).
      constructor.
      + apply (fo_sound _ _ _ F2).
      + pose proof (fo_heap _ _ _ F1). pose proof (fo_heap _ _ _ F2). lia.
      + intros q p d Eq Es. destruct (fo_solver _ _ _ F1 q p d Eq Es) as (p1 & Eq1 & Es1). eapply (fo_solver _ _ _ F2); eassumption.
      + intros q m' Eq. rewrite E2. apply (fo_options _ _ _ F1 q m' Eq).
  Qed.

  Lemma step_follows : forall c w, sound w -> follows c w (fst (step c w)).
  Proof.
    intros c w S0. destruct c as [d|g|g|n k v|i g|j g|i|i|j|n]; cbn [step].
    - unfold cbind, make, cmodify, cret. cbn [fst]. destruct S0 as [H1 H2 H3 H4 H5].
      apply follows_same; [|cbn; rewrite app_length; lia|reflexivity|reflexivity].
      constructor; cbn [w_heap w_dicts w_methods w_problems set_heap set_dicts]; rewrite ?app_length; cbn [length]; try assumption.
      + lia.
      + intros k l E. destruct (Nat.lt_ge_cases k (length (w_dicts w))) as [L|L].
        * rewrite nth_error_app1 in E by exact L. specialize (H2 k l E). lia.
        * rewrite nth_error_app2 in E by exact L. destruct (k - length (w_dicts w)) as [|[|q]]; cbn in E; try discriminate. injection E as <-. lia.
      + intros i m E. specialize (H3 i m E). lia.
      + intros j p E. specialize (H5 j p E). lia.
    - unfold new_method, fill, cbind. destruct (place_or V default_place g w) as [w1 r] eqn:E.
      destruct (place_or_sound default_place w g w1 r S0 ltac:(unfold default_place; lia) E) as [G [-> |(l & -> & Hl)]].
      + cbn [fst]. pose proof G as (E1 & E2 & E3 & E4). apply follows_same; auto; [eapply grown_sound; eassumption|].
        destruct E4 as [->|[d ->]]; [lia|rewrite app_length; lia].
      + unfold cmodify, cret. cbn [fst w_heap w_dicts w_methods w_problems set_heap set_methods].
        pose proof (grown_sound w w1 S0 G) as [H1 H2 H3 H4 H5]. destruct G as (E1 & E2 & E3 & E4).
        assert (Lh : length (w_heap w) <= length (w_heap w1)) by (destruct E4 as [->|[d ->]]; [lia|rewrite app_length; lia]).
        constructor.
        * constructor; cbn [w_heap w_dicts w_methods w_problems set_heap set_methods]; rewrite ?put_at_length by exact Hl; try assumption.
          -- intros i m Em. destruct (Nat.lt_ge_cases i (length (w_methods w1))) as [L|L].
             ++ rewrite nth_error_app1 in Em by exact L. eapply H3. exact Em.
             ++ rewrite nth_error_app2 in Em by exact L. destruct (i - length (w_methods w1)) as [|[|q]]; cbn in Em; try discriminate. injection Em as <-. exact Hl.
          -- intros i m j Em Ej. destruct (Nat.lt_ge_cases i (length (w_methods w1))) as [L|L].
             ++ rewrite nth_error_app1 in Em by exact L. eapply H4; eassumption.
             ++ rewrite nth_error_app2 in Em by exact L. destruct (i - length (w_methods w1)) as [|[|q]]; cbn in Em; try discriminate. injection Em as <-. discriminate.
        * cbn [w_heap set_heap set_methods]. rewrite put_at_length by exact Hl. exact Lh.
        * cbn [w_problems set_heap set_methods]. rewrite E3. intros j p d Ej Es. eauto.
        * cbn [w_methods set_heap set_methods]. rewrite E2. intros i m Em. exists m. rewrite nth_error_app1 by (eapply some_lt; exact Em). auto.
    - unfold new_problem, cbind. destruct (place_or V config_place g w) as [w1 r] eqn:E.
      destruct (place_or_sound config_place w g w1 r S0 ltac:(unfold config_place; lia) E) as [G [-> |(l & -> & Hl)]].
      + cbn [fst]. pose proof G as (E1 & E2 & E3 & E4). apply follows_same; auto; [eapply grown_sound; eassumption|].
        destruct E4 as [->|[d ->]]; [lia|rewrite app_length; lia].
      + unfold cmodify, cret. cbn [fst w_heap w_dicts w_methods w_problems set_problems].
        pose proof (grown_sound w w1 S0 G) as [H1 H2 H3 H4 H5]. destruct G as (E1 & E2 & E3 & E4).
        assert (Lh : length (w_heap w) <= length (w_heap w1)) by (destruct E4 as [->|[d ->]]; [lia|rewrite app_length; lia]).
        constructor.
        * constructor; cbn [w_heap w_dicts w_methods w_problems set_problems]; try assumption.
          -- intros i m j Em Ej. rewrite app_length. specialize (H4 i m j Em Ej). lia.
          -- intros j p Ej. destruct (Nat.lt_ge_cases j (length (w_problems w1))) as [L|L].
             ++ rewrite nth_error_app1 in Ej by exact L. eapply H5. exact Ej.
             ++ rewrite nth_error_app2 in Ej by exact L. destruct (j - length (w_problems w1)) as [|[|q]]; cbn in Ej; try discriminate.
                injection Ej as <-. cbn. destruct (look w1 l); [exact H1|exact Hl].
        * exact Lh.
        * cbn [w_problems set_problems]. rewrite E3. intros j p d Ej Es. exists p. rewrite nth_error_app1 by (eapply some_lt; exact Ej). auto.
        * cbn [w_methods set_problems]. rewrite E2. intros i m Em. eauto.
    - unfold cbind. destruct (place_sound w n S0) as [(l & El & Hl)|El]; rewrite El; cbn [fst]; [|apply follows_same; auto].
      unfold cmodify, cret. cbn [fst]. destruct S0 as [H1 H2 H3 H4 H5].
      apply follows_same; cbn [w_heap w_methods w_problems set_heap]; rewrite ?put_at_length by exact Hl; auto.
      constructor; cbn [w_heap w_dicts w_methods w_problems set_heap]; rewrite ?put_at_length by exact Hl; assumption.
    - unfold cbind. destruct (place_of V g w) as [w1 r] eqn:E.
      destruct (place_of_sound w g w1 r S0 E) as [G [-> |(l & -> & Hl)]].
      + cbn [fst]. pose proof G as (E1 & E2 & E3 & E4). apply follows_same; auto; [eapply grown_sound; eassumption|].
        destruct E4 as [->|[d ->]]; [lia|rewrite app_length; lia].
      + pose proof (grown_sound w w1 S0 G) as [H1 H2 H3 H4 H5]. pose proof (grown_sound w w1 S0 G) as S1. destruct G as (E1 & E2 & E3 & E4).
        assert (Lh : length (w_heap w) <= length (w_heap w1)) by (destruct E4 as [->|[d ->]]; [lia|rewrite app_length; lia]).
        unfold lookup. destruct (nth_error (w_methods w1) i) as [m|] eqn:Em; cbn [fst]; [|apply follows_same; auto].
        unfold cmodify, cret. cbn [fst]. pose proof (some_lt _ _ _ _ Em) as L. constructor.
        * constructor; cbn [w_heap w_dicts w_methods w_problems set_methods]; try assumption.
          -- intros q m' Eq. rewrite put_at_at in Eq by exact L. destruct (Nat.eqb i q); [injection Eq as <-; exact Hl|eapply H3; exact Eq].
          -- intros q m' j Eq Ej. rewrite put_at_at in Eq by exact L. destruct (Nat.eqb i q).
             ++ injection Eq as <-. cbn in Ej. eapply H4; [exact Em|exact Ej].
             ++ eapply H4; eassumption.
        * exact Lh.
        * cbn [w_problems set_methods]. rewrite E3. eauto.
        * cbn [w_methods set_methods]. intros q m' Eq. rewrite put_at_at by exact L. rewrite E2 in Em |- *. destruct (Nat.eqb_spec i q) as [->|Hq].
          -- eexists. split; [reflexivity|]. cbn. split.
             ++ intros Hn. exfalso. apply Hn. exists g. reflexivity.
             ++ intros j Ej _. congruence.
          -- exists m'. auto.
    - unfold cbind. destruct (place_of V g w) as [w1 r] eqn:E.
      destruct (place_of_sound w g w1 r S0 E) as [G [-> |(l & -> & Hl)]].
      + cbn [fst]. pose proof G as (E1 & E2 & E3 & E4). apply follows_same; auto; [eapply grown_sound; eassumption|].
        destruct E4 as [->|[d ->]]; [lia|rewrite app_length; lia].
      + pose proof (grown_sound w w1 S0 G) as [H1 H2 H3 H4 H5]. pose proof (grown_sound w w1 S0 G) as S1. destruct G as (E1 & E2 & E3 & E4).
        assert (Lh : length (w_heap w) <= length (w_heap w1)) by (destruct E4 as [->|[d ->]]; [lia|rewrite app_length; lia]).
        unfold set_problem_opts, lookup, cbind. destruct (nth_error (w_problems w1) j) as [p|] eqn:Ep; cbn [fst]; [|apply follows_same; auto].
        unfold cmodify, cret. cbn [fst]. pose proof (some_lt _ _ _ _ Ep) as L. constructor.
        * constructor; cbn [w_heap w_dicts w_methods w_problems set_problems]; try assumption.
          -- intros i m q Em Eq. rewrite put_at_length by exact L. eapply H4; eassumption.
          -- intros q p' Eq. rewrite put_at_at in Eq by exact L. destruct (Nat.eqb j q); [injection Eq as <-; exact Hl|eapply H5; exact Eq].
        * exact Lh.
        * cbn [w_problems set_problems]. intros q p' d Eq Es. rewrite put_at_at by exact L. rewrite E3 in Ep |- *. destruct (Nat.eqb_spec j q) as [->|Hq].
          -- eexists. split; [reflexivity|]. cbn. congruence.
          -- eauto.
        * cbn [w_methods set_problems]. rewrite E2. intros i m Em. eauto.
    - unfold cbind. destruct (create V i w) as [w1 r] eqn:E. destruct (create_follows (ACreate i) w i w1 r S0 E (or_introl eq_refl)) as [F _].
      destruct r; exact F.
    - unfold cbind. destruct (solve_method V i w) as [w1 r] eqn:E. pose proof (solve_method_follows (ASolve i) w i w1 r S0 E) as F. destruct r; exact F.
    - unfold cbind. destruct (solve_problem V j w) as [w1 r] eqn:E. pose proof (solve_problem_follows (ASolveProblem j) w j w1 r S0 E) as [F _]. destruct r; exact F.
    - unfold cbind. destruct (place_sound w n S0) as [(l & El & Hl)|El]; rewrite El; cbn [fst]; apply follows_same; auto.
  Qed.

  Lemma after_cons : forall c cs w, after (c :: cs) w = after cs (fst (step c w)).
  Proof. intros c cs w. unfold after. cbn. destruct (step c w) as [w' r]. cbn. destruct (history cs w'). reflexivity. Qed.
  Lemma after_sound : forall cs w, sound w -> sound (after cs w).
  Proof.
    induction cs as [|c cs IH]; intros w S0; [exact S0|]. rewrite after_cons. apply IH. apply (fo_sound _ _ _ (step_follows c w S0)).
  Qed.
  Lemma imported_sound : forall config : table, sound (imported config).
  Proof.
    intros config. constructor; cbn; try lia; intros i ? ?; try intros; destruct i; cbn in *; discriminate.
  Qed.
  Lemma reached_sound : forall (config : table) w, reached config w -> sound w.
  Proof. intros config w [cs ->]. apply (after_sound cs). apply imported_sound. Qed.

  (** *** Solvers are kept *)
  Lemma solver_kept : forall cs w j p d, sound w -> nth_error (w_problems w) j = Some p -> pr_solver p = Some d ->
      exists p', nth_error (w_problems (after cs w)) j = Some p' /\ pr_solver p' = Some d.
  Proof.
    induction cs as [|c cs IH]; intros w j p d S0 E Es; [exists p; auto|]. rewrite after_cons.
    pose proof (step_follows c w S0) as F. destruct (fo_solver _ _ _ F j p d E Es) as (p' & E' & Es'). eapply IH; try eassumption. apply F.
  Qed.
  Lemma solved : forall w j w' d, solve_problem V j w = (w', Ok d) -> exists p, nth_error (w_problems w') j = Some p /\ pr_solver p = Some d.
  Proof.
    intros w j w' d E. unfold solve_problem, cbind, lookup in E. destruct (nth_error (w_problems w) j) as [p|] eqn:Ej; [|discriminate].
    destruct (pr_solver p) as [d'|] eqn:Es.
    - cbn in E. injection E as <- <-. eauto.
    - unfold cmodify, cret in E. injection E as <- <-. cbn [w_problems set_problems]. rewrite put_at_at, Nat.eqb_refl by (eapply some_lt; exact Ej).
      eexists. split; reflexivity.
  Qed.
  Lemma solve_again : forall w j p d, nth_error (w_problems w) j = Some p -> pr_solver p = Some d -> solve_problem V j w = (w, Ok d).
  Proof. intros w j p d E Es. unfold solve_problem, cbind, lookup. rewrite E, Es. reflexivity. Qed.
  Lemma shown_solve_problem : forall w j d, shown (ASolveProblem j) w = Ok (Some d) -> exists w', solve_problem V j w = (w', Ok d) /\ after [ASolveProblem j] w = w'.
  Proof.
    intros w j d E. unfold shown, after in *. cbn in *. unfold cbind in *. destruct (solve_problem V j w) as [w' [d'|e]]; cbn in *; [|discriminate].
    injection E as ->. exists w'. split; reflexivity.
  Qed.
  Lemma w_C83_solver_kept : forall (config : table) w j d cs, reached config w -> shown (ASolveProblem j) w = Ok (Some d) ->
      shown (ASolveProblem j) (after (ASolveProblem j :: cs) w) = Ok (Some d).
  Proof.
    intros config w j d cs R E. pose proof (reached_sound config w R) as S0. destruct (shown_solve_problem w j d E) as (w' & Es & Ew).
    destruct (solved w j w' d Es) as (p & Ep & Ed). rewrite after_cons.
    assert (Hw : fst (step (ASolveProblem j) w) = w') by (cbn; unfold cbind; rewrite Es; reflexivity). rewrite Hw.
    assert (S1 : sound w') by (rewrite <- Ew; apply after_sound; exact S0).
    destruct (solver_kept cs w' j p d S1 Ep Ed) as (p' & Ep' & Ed'). unfold shown. cbn. unfold cbind. rewrite (solve_again _ _ _ _ Ep' Ed'). reflexivity.
  Qed.

  (** *** Methods keep their problem and their options *)
  Lemma method_kept : forall cs w i m j, sound w -> nth_error (w_methods w) i = Some m -> me_problem m = Some j ->
      ~ In (ACreate i) cs -> exists m', nth_error (w_methods (after cs w)) i = Some m' /\ me_problem m' = Some j.
  Proof.
    induction cs as [|c cs IH]; intros w i m j S0 E Ej N; [exists m; auto|]. rewrite after_cons.
    pose proof (step_follows c w S0) as F. destruct (fo_options _ _ _ F i m E) as (m' & E' & _ & Hk).
    apply (IH _ i m' j); [apply F|exact E'| |intros H; apply N; right; exact H].
    apply Hk; [exact Ej|]. intros ->. apply N. left. reflexivity.
  Qed.
  Lemma options_kept : forall cs w i m, sound w -> nth_error (w_methods w) i = Some m ->
      (forall c, In c cs -> ~ assigns_method i c) -> exists m', nth_error (w_methods (after cs w)) i = Some m' /\ me_opts m' = me_opts m.
  Proof.
    induction cs as [|c cs IH]; intros w i m S0 E N; [exists m; auto|]. rewrite after_cons.
    pose proof (step_follows c w S0) as F. destruct (fo_options _ _ _ F i m E) as (m' & E' & Ho & _).
    destruct (IH _ i m' (fo_sound _ _ _ F) E') as (m'' & E'' & Ho''); [intros c' Hc'; apply N; right; exact Hc'|].
    exists m''. split; [exact E''|]. rewrite Ho''. apply Ho. apply N. left. reflexivity.
  Qed.

  (** Solving a method: its problem, and a solver with the shown options. *)
  Lemma solved_method : forall w i w' d, sound w -> solve_method V i w = (w', Ok d) -> exists m j p,
      nth_error (w_methods w') i = Some m /\ me_problem m = Some j /\ nth_error (w_problems w') j = Some p /\ pr_solver p = Some d.
  Proof.
    intros w i w' d S0 E. unfold solve_method, cbind, lookup in E. destruct (nth_error (w_methods w) i) as [m|] eqn:Em; [|discriminate].
    destruct (me_problem m) as [j|] eqn:Ej.
    - cbn [cret] in E. destruct (solve_problem_follows (ASolve i) w j w' _ S0 E) as (F & E2 & _).
      destruct (solved w j w' d E) as (p & Ep & Ed). exists m, j, p. rewrite E2. auto.
    - destruct (create V i w) as [w1 r1] eqn:E1. destruct (create_follows (ACreate i) w i w1 r1 S0 E1 (or_introl eq_refl)) as [F1 D1].
      destruct (D1 m Em) as (-> & Em1 & _ & _).
      destruct (solve_problem_follows (ASolve i) w1 _ w' _ (fo_sound _ _ _ F1) E) as (F & E2 & _).
      destruct (solved w1 _ w' d E) as (p & Ep & Ed). eexists _, _, p. rewrite E2, Em1. repeat split; [exact Ep|exact Ed].
  Qed.
  Lemma w_C83_method_kept : forall (config : table) w i d cs, reached config w -> shown (ASolve i) w = Ok (Some d) -> ~ In (ACreate i) cs ->
      shown (ASolve i) (after (ASolve i :: cs) w) = Ok (Some d).
  Proof.
    intros config w i d cs R E N. pose proof (reached_sound config w R) as S0. rewrite after_cons.
    unfold shown in E. cbn [step] in E. unfold cbind in E. destruct (solve_method V i w) as [w' [d'|e]] eqn:Es; cbn in E; [|discriminate].
    injection E as ->. destruct (solved_method w i w' d S0 Es) as (m & j & p & Em & Ej & Ep & Ed).
    assert (Hw : fst (step (ASolve i) w) = w') by (cbn [step]; unfold cbind; rewrite Es; reflexivity). rewrite Hw.
    assert (S1 : sound w') by (rewrite <- Hw; apply (fo_sound _ _ _ (step_follows (ASolve i) w S0))).
    destruct (method_kept cs w' i m j S1 Em Ej N) as (m' & Em' & Ej'). destruct (solver_kept cs w' j p d S1 Ep Ed) as (p' & Ep' & Ed').
    unfold shown. cbn [step]. unfold solve_method, cbind, lookup. rewrite Em', Ej'. cbn [cret]. rewrite (solve_again _ _ _ _ Ep' Ed'). reflexivity.
  Qed.

  (** *** New methods *)
  Lemma look_put : forall w l d l', l < length (w_heap w) -> look (set_heap V (put_at l d (w_heap w)) w) l' = if Nat.eqb l l' then d else look w l'.
  Proof.
    intros w l d l' L. unfold look. cbn [w_heap set_heap]. destruct (Nat.eqb_spec l l') as [->|Hd].
    - apply nth_error_nth. rewrite put_at_at, Nat.eqb_refl by exact L. reflexivity.
    - destruct (nth_error (w_heap w) l') as [a|] eqn:E.
      + rewrite (nth_error_nth _ _ _ E). apply nth_error_nth. rewrite put_at_at by exact L.
        rewrite (proj2 (Nat.eqb_neq l l')) by exact Hd. exact E.
      + apply nth_error_None in E. rewrite !nth_overflow; [reflexivity|exact E|]. rewrite put_at_length by exact L. exact E.
  Qed.
  Lemma look_grown : forall w w' l, grown w w' -> l < length (w_heap w) -> look w' l = look w l.
  Proof.
    intros w w' l (_ & _ & _ & [E|[d E]]) L; unfold look; rewrite E; [reflexivity|]. apply app_nth1. exact L.
  Qed.
  Lemma w_C83_filled : forall (config : table) w g w' r d (c : table), reached config w -> step (AMethod g) w = (w', Ok r) ->
      options_given g w d -> shown (ARead NConfig) w = Ok (Some c) ->
      exists d', shown (ARead (NMethod (length (w_methods w)))) w' = Ok (Some d') /\
        forall k, entry k d' = match entry k d with Some v => Some v | None => entry k c end.
  Proof.
    intros config w g w' r d c R E G Ec. pose proof (reached_sound config w R) as S0.
    unfold shown in Ec. cbn in Ec. injection Ec as Ec. cbn [step] in E. unfold new_method, fill, cbind in E.
    destruct (place_or V default_place g w) as [w1 r1] eqn:E1.
    destruct (place_or_sound default_place w g w1 r1 S0 ltac:(unfold default_place; lia) E1) as [Gr [-> |(l & -> & Hl)]]; [discriminate|].
    unfold cmodify, cret in E. injection E as <- _. unfold shown. cbn [step]. unfold place, cbind, lookup. cbn [w_methods set_methods set_heap].
    pose proof Gr as (_ & Em & _ & _). rewrite Em, nth_error_app2, Nat.sub_diag by lia. cbn [nth_error cret me_opts snd].
    eexists. split; [reflexivity|]. intros k. unfold look at 1. cbn [w_heap set_methods].
    change (nth l (w_heap (set_heap V (put_at l (filled (look w1 config_place) (look w1 l)) (w_heap w1)) w1)) [])
      with (look (set_heap V (put_at l (filled (look w1 config_place) (look w1 l)) (w_heap w1)) w1) l).
    rewrite look_put, Nat.eqb_refl by exact Hl. unfold entry. rewrite filled_entry.
    rewrite (look_grown w w1 config_place Gr) by apply (so_two w S0). rewrite Ec.
    assert (Hd : look w1 l = d).
    { destruct g as [[d0|n]|]; cbn [options_given place_or place_of] in *.
      - unfold make in E1. injection E1 as <- <-. subst d0. unfold look. cbn. rewrite app_nth2, Nat.sub_diag by lia. reflexivity.
      - destruct (place_sound w n S0) as [(l' & El & Hl')|El]; rewrite El in E1; [|discriminate]. injection E1 as <- <-.
        unfold shown in G. cbn [step] in G. unfold cbind in G. rewrite El in G. cbn in G. congruence.
      - unfold cret in E1. injection E1 as <- <-. congruence. }
    rewrite Hd. reflexivity.
  Qed.

  (** *** Assigning options after the problem was created *)
  Lemma w_C83_assigned_late : forall (config : table) w i r g, reached config w -> shown (ACreate i) w = Ok r ->
      shown (ASolve i) (after [ACreate i; AAssignMethod i g] w) = shown (ASolve i) (after [ACreate i] w).
  Proof.
    intros config w i r g R E. pose proof (reached_sound config w R) as S0. unfold shown in E. cbn [step] in E. unfold cbind in E.
    destruct (create V i w) as [w1 r1] eqn:Ecr. destruct (create_follows (ACreate i) w i w1 r1 S0 Ecr (or_introl eq_refl)) as [F D].
    destruct (nth_error (w_methods w) i) as [m|] eqn:Em.
    2:{ unfold create, lookup, cbind in Ecr. rewrite Em in Ecr. injection Ecr as <- <-. discriminate. }
    destruct (D m eq_refl) as (-> & Em1 & Ep1 & Eh).
    assert (Hw : fst (step (ACreate i) w) = w1) by (cbn [step]; unfold cbind; rewrite Ecr; reflexivity).
    rewrite !after_cons, Hw. change (after [] w1) with w1. change (after [] (fst (step (AAssignMethod i g) w1))) with (fst (step (AAssignMethod i g) w1)).
    pose proof (fo_sound _ _ _ F) as S1. cbn [step]. unfold cbind. destruct (place_of V g w1) as [w2 r2] eqn:E2.
    destruct (place_of_sound w1 g w2 r2 S1 E2) as [Gr Hr]. pose proof Gr as (E2d & E2m & E2p & E2h).
    assert (Lk : look w2 (me_opts m) = look w1 (me_opts m)).
    { apply (look_grown w1 w2 _ Gr). exact (so_problems w1 S1 _ _ Ep1). }
    assert (Show : forall w3 mm, nth_error (w_methods w3) i = Some mm -> me_problem mm = Some (length (w_problems w)) -> w_problems w3 = w_problems w1 ->
              look w3 (me_opts m) = look w1 (me_opts m) -> shown (ASolve i) w3 = Ok (Some (look w1 (me_opts m)))).
    { intros w3 mm Em3 Ej3 Ep3 El3. unfold shown. cbn [step]. unfold solve_method, cbind, lookup. rewrite Em3, Ej3. cbn [cret].
      unfold solve_problem, lookup, cbind. rewrite Ep3, Ep1. cbn [pr_solver pr_opts cmodify cret snd]. rewrite El3. reflexivity. }
    transitivity (Ok (Some (look w1 (me_opts m)))); [|symmetry; eapply Show; [exact Em1|reflexivity|reflexivity|reflexivity]].
    destruct Hr as [-> |(l & -> & Hl)]; cbn [fst].
    - eapply Show; [rewrite E2m; exact Em1|reflexivity|exact E2p|exact Lk].
    - unfold lookup. rewrite E2m, Em1. unfold cmodify, cret. cbn [fst me_problem]. rewrite E2m.
      eapply Show; cbn [w_methods w_problems set_methods]; [rewrite put_at_at, Nat.eqb_refl by (eapply some_lt; exact Em1); reflexivity|reflexivity|exact E2p|].
      unfold look in *. cbn [w_heap set_methods]. exact Lk.
  Qed.

  (** *** The default options are one dictionary *)
  Lemma new_default : forall w, sound w ->
      nth_error (w_methods (fst (step (AMethod None) w))) (length (w_methods w)) = Some (mkMeth default_place None).
  Proof.
    intros w S0. cbn [step]. unfold new_method, fill, place_or, cbind, cmodify, cret. cbn [fst w_methods set_methods set_heap].
    rewrite nth_error_app2, Nat.sub_diag by lia. reflexivity.
  Qed.
  Lemma w_C83_defaults_shared : forall (config : table) w cs cs', reached config w ->
      let i := length (w_methods w) in
      let w2 := after (AMethod None :: cs) w in
      let i' := length (w_methods w2) in
      let w3 := after (AMethod None :: cs') w2 in
      (forall c, In c (cs ++ AMethod None :: cs') -> ~ assigns_method i c) -> (forall c, In c cs' -> ~ assigns_method i' c) ->
      exists d, shown (ARead (NMethod i)) w3 = Ok (Some d) /\ shown (ARead (NMethod i')) w3 = Ok (Some d).
  Proof.
    intros config w cs cs' R i w2 i' w3 N N'. pose proof (reached_sound config w R) as S0.
    set (w1 := fst (step (AMethod None) w)). assert (S1 : sound w1) by apply (fo_sound _ _ _ (step_follows (AMethod None) w S0)).
    assert (E2 : w2 = after cs w1) by (unfold w2; apply after_cons). assert (S2 : sound w2) by (rewrite E2; apply after_sound; exact S1).
    destruct (options_kept cs w1 i _ S1 (new_default w S0)) as (m & Em & Eo).
    { intros c Hc. apply N. apply in_or_app. left. exact Hc. }
    rewrite <- E2 in Em. cbn [me_opts] in Eo.
    destruct (options_kept (AMethod None :: cs') w2 i m S2 Em) as (m3 & Em3 & Eo3).
    { intros c Hc. apply N. apply in_or_app. right. exact Hc. }
    set (w2' := fst (step (AMethod None) w2)). assert (S2' : sound w2') by apply (fo_sound _ _ _ (step_follows (AMethod None) w2 S2)).
    assert (E3 : w3 = after cs' w2') by (unfold w3; apply after_cons).
    destruct (options_kept cs' w2' i' _ S2' (new_default w2 S2) N') as (m' & Em' & Eo'). rewrite <- E3 in Em'. cbn [me_opts] in Eo'.
    exists (look w3 default_place). unfold shown. cbn [step]. unfold place, cbind, lookup. fold w3 in Em3. rewrite Em3, Em'. cbn [cret snd].
    rewrite Eo3, Eo, Eo'. split; reflexivity.
  Qed.

  (** *** Histories of a few calls *)
  Lemma entry_dset : forall k k' (v : V) (d : table), entry k (dset String.eqb k' v d) = if String.eqb k k' then Some v else entry k d.
  Proof. intros. apply dget_dset. Qed.
  Lemma w_C83_independent : forall (config : table) k v, exists d,
      shown (ASolve 1) (after [AMethod None; AMethod None; AWrite (NMethod 0) k v] (imported config)) = Ok (Some d) /\ entry k d = Some v.
  Proof. intros config k v. eexists. split; [reflexivity|]. cbn -[dset filled entry]. rewrite entry_dset, String.eqb_refl. reflexivity. Qed.
  Lemma w_C83_config_changed : forall (config : table) k v v', entry k config = Some v -> exists d,
      shown (ARead (NMethod 1)) (after [AMethod None; AWrite NConfig k v'; AMethod None] (imported config)) = Ok (Some d) /\ entry k d = Some v.
  Proof.
    intros config k v v' E. eexists. split; [reflexivity|]. cbn -[dset filled entry dget]. unfold entry in *. rewrite !filled_entry. cbn [dget]. rewrite E. reflexivity.
  Qed.
  Lemma w_C83_problem_options : forall (config : table) k v, exists d d',
      shown (ARead NConfig) (after [AProblem None; AWrite (NProblem 0) k v] (imported config)) = Ok (Some d) /\ entry k d = Some v /\
      shown (ASolve 0) (after [AProblem None; AWrite (NProblem 0) k v; AMethod (Some (New []))] (imported config)) = Ok (Some d') /\ entry k d' = Some v.
  Proof.
    intros config k v. destruct config as [|kv config]; (eexists; eexists; split; [reflexivity|]; split; [|split; [reflexivity|]]).
    - cbn. rewrite String.eqb_refl. reflexivity.
    - cbn. rewrite String.eqb_refl. reflexivity.
    - cbn -[dset filled entry]. rewrite entry_dset, String.eqb_refl. reflexivity.
    - cbn -[dset filled entry dget]. unfold entry. rewrite filled_entry. cbn [dget]. rewrite dget_dset, String.eqb_refl. reflexivity.
  Qed.
  Lemma w_C83_dictionary : forall (config d : table) k v, entry k config = Some v -> entry k d = None -> exists d',
      shown (ARead (NDict 0)) (after [ADict d; AMethod (Some (Named (NDict 0)))] (imported config)) = Ok (Some d') /\ entry k d' = Some v.
  Proof.
    intros config d k v E N. eexists. split; [reflexivity|]. cbn -[dset filled entry dget]. unfold entry in *. rewrite filled_entry, N. exact E.
  Qed.
End All.

Lemma w_own_options_used :
  let config := [("max_iter"%string, 1000); ("print"%string, 0)] in
  let cs := [AMethod (Some (New [("max_iter"%string, 10)])); AWrite NConfig "print"%string 5; AMethod (Some (New []));
             AWrite (NMethod 0) "tol"%string 7; ASolve 0; AWrite (NMethod 0) "tol"%string 8; ASolve 0; ASolve 1;
             ACreate 0; ASolve 0; AProblem (Some (New [("tol"%string, 3)])); AWrite (NProblem 3) "tol"%string 2; ASolveProblem 3] in
  keyed config /\ Forall gives_own cs /\ Forall keyed_call cs /\
  filter (fun r => match r with Ok None => false | _ => true end) (snd (history cs (imported config))) =
    [Ok (Some [("max_iter"%string, 10); ("print"%string, 0); ("tol"%string, 7)]);
     Ok (Some [("max_iter"%string, 10); ("print"%string, 0); ("tol"%string, 7)]);
     Ok (Some [("max_iter"%string, 1000); ("print"%string, 5)]);
     Ok (Some [("max_iter"%string, 10); ("print"%string, 0); ("tol"%string, 8)]);
     Ok (Some [("tol"%string, 2)])].
Proof.
  cbv zeta. split; [|split; [|split; [|vm_compute; reflexivity]]].
  - unfold keyed. cbn. repeat constructor; cbn; intuition discriminate.
  - repeat constructor. cbn. discriminate.
  - repeat (constructor; [cbn; unfold keyed; cbn; try exact I; repeat constructor; cbn; intuition discriminate|]). constructor.
Qed.

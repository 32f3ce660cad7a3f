(** Proofs for copies of models. *)
From Coq Require Import Lia.
From Verif Require Import Base BaseProofs ExprModel SysModel OcpModel CpyModel CpySpec.
Local Open Scope list_scope.
Local Open Scope nat_scope.

(** ** Lists *)
Lemma put_at_at : forall (A : Type) i (a : A) l j, i < length l ->
    nth_error (put_at i a l) j = if Nat.eqb i j then Some a else nth_error l j.
Proof.
  intros A i a l j. revert l j. induction i as [|i IH]; intros [|b l] j L; simpl in L; try lia.
  - destruct j; reflexivity.
  - destruct j as [|j]; [reflexivity|]. cbn. apply (IH l j). lia.
Qed.
Lemma put_at_length : forall (A : Type) i (a : A) l, i < length l -> length (put_at i a l) = length l.
Proof.
  intros A i a l L. unfold put_at. rewrite app_length. cbn [length]. rewrite firstn_length, skipn_length. lia.
Qed.
Lemma change_at_gen : forall (A : Type) i (f : A -> A) l n j,
    nth_error (map (fun ia => if Nat.eqb (fst ia) i then f (snd ia) else snd ia) (combine (seq n (length l)) l)) j =
    option_map (fun a => if Nat.eqb (n + j) i then f a else a) (nth_error l j).
Proof.
  intros A i f l. induction l as [|a l IH]; intros n j; [destruct j; reflexivity|]. destruct j as [|j]; cbn.
  - rewrite Nat.add_0_r. reflexivity.
  - rewrite IH. replace (S n + j) with (n + S j) by lia. reflexivity.
Qed.
Lemma change_at : forall (A : Type) i (f : A -> A) l j,
    nth_error (change i f l) j = option_map (fun a => if Nat.eqb j i then f a else a) (nth_error l j).
Proof. intros A i f l j. unfold change. rewrite change_at_gen. reflexivity. Qed.
Lemma some_lt : forall (A : Type) (l : list A) i a, nth_error l i = Some a -> i < length l.
Proof. intros A l i a E. apply nth_error_Some. rewrite E. discriminate. Qed.
Lemma nth_error_ext : forall (A : Type) (l l' : list A), (forall i, nth_error l i = nth_error l' i) -> l = l'.
Proof.
  induction l as [|a l IH]; intros [|b l'] H; [reflexivity|specialize (H 0); discriminate|specialize (H 0); discriminate|].
  pose proof (H 0) as E. injection E as ->. f_equal. apply IH. intros i. exact (H (S i)).
Qed.
Lemma nth_of_error : forall (A : Type) (l : list A) i a d, nth_error l i = Some a -> nth i l d = a.
Proof. induction l as [|b l IH]; intros [|i] a d E; try discriminate; cbn in *; [congruence|eauto]. Qed.
Lemma nth_put : forall (A : Type) i (a : A) l j d, i < length l -> nth j (put_at i a l) d = if Nat.eqb i j then a else nth j l d.
Proof.
  intros A i a l j d. revert l j. induction i as [|i IH]; intros [|b l] j L; simpl in L; try lia.
  - destruct j; reflexivity.
  - destruct j as [|j]; [reflexivity|]. cbn. apply (IH l j). lia.
Qed.
Lemma map_put : forall (A B : Type) (f : A -> B) i (a : A) l, i < length l ->
    map f (put_at i a l) = change i (fun _ => f a) (map f l).
Proof.
  intros A B f i a l L. apply nth_error_ext. intros j. rewrite nth_error_map, change_at, nth_error_map, put_at_at by exact L.
  rewrite (Nat.eqb_sym j i). destruct (Nat.eqb_spec i j) as [->|].
  - destruct (nth_error l j) eqn:E; [reflexivity|]. apply nth_error_None in E. lia.
  - destruct (nth_error l j); reflexivity.
Qed.

Lemma whole : forall m, set_parametrized (m_parametrized m) (set_ode (m_ode m) m) = m.
Proof. intros []. reflexivity. Qed.
Lemma same_whole : forall m d l, d = m_ode m -> l = m_parametrized m -> set_parametrized l (set_ode d m) = m.
Proof. intros m d l -> ->. apply whole. Qed.

(** ** Every model owns its dictionary *)
Record owned (w : world) : Prop := mkOwned
  { own_dict : forall i h, nth_error (w_models w) i = Some h -> h_dict h < length (w_dicts w);
    own_list : forall i h, nth_error (w_models w) i = Some h -> h_list h < length (w_lists w);
    own_sole : forall i j h h', nth_error (w_models w) i = Some h -> nth_error (w_models w) j = Some h' ->
                 h_dict h = h_dict h' -> i = j;
    own_work : forall k p, nth_error (w_probs w) k = Some p -> p_model p < length (w_models w);
    own_user : forall k p, nth_error (w_probs w) k = Some p -> p_user p < length (w_models w);
    own_prob : forall k k' p p', nth_error (w_probs w) k = Some p -> nth_error (w_probs w) k' = Some p' ->
                 p_model p = p_model p' -> k = k';
    own_before : forall k p, nth_error (w_probs w) k = Some p -> p_user p < p_model p }.

Lemma owned_nothing : owned nothing.
Proof. constructor; intros; destruct i || destruct k; discriminate. Qed.

Lemma snoc_at : forall (A : Type) (l : list A) a i b, nth_error (l ++ [a]) i = Some b ->
    (i < length l /\ nth_error l i = Some b) \/ (i = length l /\ b = a).
Proof.
  intros A l a i b E. destruct (Nat.lt_trichotomy i (length l)) as [L|[->|L]].
  - left. rewrite nth_error_app1 in E by exact L. split; assumption.
  - right. rewrite nth_error_app2, Nat.sub_diag in E by lia. cbn in E. split; congruence.
  - apply some_lt in E. rewrite app_length in E. cbn in E. lia.
Qed.

(** A new model: its dictionary at the end of the dictionaries. *)
Lemma grown : forall w m d lists l,
    owned w -> (exists more, lists = w_lists w ++ more) -> l < length lists ->
    nth l lists [] = m_parametrized m -> d = m_ode m ->
    forall rest, set_parametrized (m_parametrized m) (set_ode (m_ode m) rest) = m ->
    let w' := mkWorld (w_dicts w ++ [d]) lists (w_models w ++ [mkHandle rest (length (w_dicts w)) l]) (w_probs w) in
    owned w' /\ shown w' = mkValues (v_models (shown w) ++ [m]) (v_probs (shown w)).
Proof.
  intros w m d lists l O [more ->] Ll El -> rest Er w'. split.
  - constructor; cbn [w' w_models w_dicts w_lists w_probs].
    + intros i h E. rewrite app_length. cbn. destruct (snoc_at _ _ _ _ _ E) as [[_ E']|[_ ->]]; [|cbn; lia].
      pose proof (own_dict _ O _ _ E'). lia.
    + intros i h E. destruct (snoc_at _ _ _ _ _ E) as [[_ E']|[_ ->]]; [|exact Ll].
      pose proof (own_list _ O _ _ E'). rewrite app_length. lia.
    + intros i j h h' E E' D. destruct (snoc_at _ _ _ _ _ E) as [[_ F]|[Hi ->]], (snoc_at _ _ _ _ _ E') as [[_ F']|[Hj ->]].
      * exact (own_sole _ O _ _ _ _ F F' D).
      * pose proof (own_dict _ O _ _ F). cbn in D. lia.
      * pose proof (own_dict _ O _ _ F'). cbn in D. lia.
      * congruence.
    + intros k p E. pose proof (own_work _ O _ _ E). rewrite app_length. lia.
    + intros k p E. pose proof (own_user _ O _ _ E). rewrite app_length. lia.
    + exact (own_prob _ O).
    + exact (own_before _ O).
  - unfold shown, w'. cbn [w_models w_probs v_models v_probs]. f_equal. rewrite map_app. cbn [map]. f_equal.
    + apply map_ext_in. intros h I. apply In_nth_error in I. destruct I as [i E]. unfold load. cbn [w_dicts w_lists].
      rewrite !app_nth1 by first [exact (own_dict _ O _ _ E)|exact (own_list _ O _ _ E)]. reflexivity.
    + f_equal. unfold load. cbn [w_dicts w_lists h_dict h_list h_rest]. rewrite El, app_nth2, Nat.sub_diag by lia. exact Er.
Qed.

Lemma shown_model : forall w i, nth_error (v_models (shown w)) i = model_at w i.
Proof. intros w i. cbn [shown v_models]. rewrite nth_error_map. unfold model_at. destruct (nth_error (w_models w) i); reflexivity. Qed.
Lemma shown_prob : forall w k, nth_error (v_probs (shown w)) k =
    option_map (fun p => mkIdeal (p_user p) (p_model p) (p_rest p)) (nth_error (w_probs w) k).
Proof. intros w k. cbn [shown v_probs]. apply nth_error_map. Qed.

(** What the world does is what the values do. *)
Definition matches (x : world * res unit) (y : values * res unit) : Prop :=
  owned (fst x) /\ shown (fst x) = fst y /\ snd x = snd y.

Lemma add_matches : forall w m, owned w ->
    let x := add_model m w in
    owned (fst x) /\ shown (fst x) = mkValues (v_models (shown w) ++ [m]) (v_probs (shown w)).
Proof.
  intros w m O. cbn. apply (grown w m); [exact O|eexists; reflexivity| | |reflexivity|apply whole].
  - rewrite app_length. cbn. lia.
  - rewrite app_nth2, Nat.sub_diag by lia. reflexivity.
Qed.

Lemma copy_matches : forall w i h, owned w -> nth_error (w_models w) i = Some h ->
    exists w', get_copy i w = (w', Ok (length (w_models w))) /\ owned w' /\
      nth_error (w_models w') (length (w_models w)) =
        Some (mkHandle (h_rest h) (length (w_dicts w)) (h_list h)) /\
      length (w_models w') = S (length (w_models w)) /\
      load w' (mkHandle (h_rest h) (length (w_dicts w)) (h_list h)) = load w h /\
      w_probs w' = w_probs w /\
      shown w' = mkValues (v_models (shown w) ++ [load w h]) (v_probs (shown w)).
Proof.
  intros w i h O E. unfold get_copy, cbind, lookup. rewrite E. eexists. split; [reflexivity|]. cbn [w_models w_probs].
  destruct (grown w (load w h) (nth (h_dict h) (w_dicts w) []) (w_lists w) (h_list h) O) with (rest := h_rest h) as [O' S'].
  - exists []. rewrite app_nil_r. reflexivity.
  - exact (own_list _ O _ _ E).
  - reflexivity.
  - reflexivity.
  - unfold load. destruct (h_rest h). reflexivity.
  - split; [exact O'|]. split; [rewrite nth_error_app2, Nat.sub_diag by lia; reflexivity|].
    split; [rewrite app_length; cbn; lia|]. split; [|split; [reflexivity|exact S']].
    unfold load. cbn [w_dicts w_lists h_dict h_list h_rest]. rewrite app_nth2, Nat.sub_diag by lia. reflexivity.
Qed.

Section Calls.
  Variable same : expr -> expr -> bool.
  Variable rebound : cmd model unit -> model -> option equations.

  Lemma on_handle_matches : forall w i c, owned w ->
      matches (on_handle rebound i c w) (ideal_model i c (shown w)).
  Proof.
    intros w i c O. unfold on_handle, ideal_model, cbind, lookup. rewrite shown_model. unfold model_at.
    destruct (nth_error (w_models w) i) as [h|] eqn:E; [|split; [exact O|split; reflexivity]].
    destruct (c (load w h)) as [m r]. cbn [fst snd].
    pose proof (own_dict _ O _ _ E) as Ld. pose proof (own_list _ O _ _ E) as Ll. pose proof (some_lt _ _ _ _ E) as Li.
    set (dicts := match rebound c (load w h) with None => _ | Some _ => _ end).
    set (d := match rebound c (load w h) with None => h_dict h | Some _ => _ end).
    set (keep := if list_eq_dec _ _ _ then true else false).
    set (lists := if keep then _ else _). set (l := if keep then _ else _).
    (* where the places are *)
    assert (Dn : length (w_dicts w) <= length dicts).
    { subst dicts. pose proof (fun a => put_at_length _ (h_dict h) a (w_dicts w) Ld) as P. destruct (rebound c (load w h)); [rewrite app_length|]; rewrite P; lia. }
    assert (Dd : d < length dicts).
    { subst dicts d. pose proof (fun a => put_at_length _ (h_dict h) a (w_dicts w) Ld) as P. destruct (rebound c (load w h)); [rewrite app_length|]; rewrite P; cbn [length]; lia. }
    assert (Dv : nth d dicts [] = m_ode m).
    { subst dicts d. destruct (rebound c (load w h)).
      - rewrite app_nth2; rewrite put_at_length by exact Ld; [rewrite Nat.sub_diag; reflexivity|lia].
      - rewrite nth_put, Nat.eqb_refl by exact Ld. reflexivity. }
    assert (Do : forall j h', nth_error (w_models w) j = Some h' -> j <> i ->
                   d <> h_dict h' /\ nth (h_dict h') dicts [] = nth (h_dict h') (w_dicts w) []).
    { intros j h' E' N. pose proof (own_dict _ O _ _ E') as L'.
      assert (Nd : h_dict h <> h_dict h') by (intros D; apply N; symmetry; exact (own_sole _ O _ _ _ _ E E' D)).
      subst dicts d. destruct (rebound c (load w h)).
      - split; [lia|]. rewrite app_nth1 by (rewrite put_at_length by exact Ld; exact L'). rewrite nth_put by exact Ld.
        destruct (Nat.eqb_spec (h_dict h) (h_dict h')); [contradiction|reflexivity].
      - split; [exact Nd|]. rewrite nth_put by exact Ld. destruct (Nat.eqb_spec (h_dict h) (h_dict h')); [contradiction|reflexivity]. }
    assert (Ln : forall q, q < length (w_lists w) -> q < length lists /\ nth q lists [] = nth q (w_lists w) []).
    { intros q L. subst lists. destruct keep; [split; [exact L|reflexivity]|]. rewrite app_length, app_nth1 by exact L. split; [lia|reflexivity]. }
    assert (Lv : l < length lists /\ nth l lists [] = m_parametrized m).
    { subst lists l keep. destruct (list_eq_dec _ _ _) as [Eq|_].
      - split; [exact Ll|]. rewrite Eq. reflexivity.
      - rewrite app_length, app_nth2, Nat.sub_diag by lia. cbn. split; [lia|reflexivity]. }
    unfold matches. cbn [fst snd]. split; [|split; [|reflexivity]].
    - constructor; cbn [w_models w_dicts w_lists w_probs].
      + intros j h' E'. rewrite put_at_at in E' by exact Li. destruct (Nat.eqb_spec i j); [injection E' as <-; exact Dd|].
        pose proof (own_dict _ O _ _ E'). lia.
      + intros j h' E'. rewrite put_at_at in E' by exact Li. destruct (Nat.eqb_spec i j); [injection E' as <-; exact (proj1 Lv)|].
        apply Ln. exact (own_list _ O _ _ E').
      + intros j j' h1 h2 E1 E2 D. rewrite put_at_at in E1, E2 by exact Li.
        destruct (Nat.eqb_spec i j) as [<-|N1], (Nat.eqb_spec i j') as [<-|N2].
        * reflexivity.
        * injection E1 as <-. cbn in D. destruct (Do _ _ E2 (not_eq_sym N2)) as [X _]. contradiction.
        * injection E2 as <-. cbn in D. destruct (Do _ _ E1 (not_eq_sym N1)) as [X _]. congruence.
        * exact (own_sole _ O _ _ _ _ E1 E2 D).
      + intros k p Ep. rewrite put_at_length by exact Li. exact (own_work _ O _ _ Ep).
      + intros k p Ep. rewrite put_at_length by exact Li. exact (own_user _ O _ _ Ep).
      + exact (own_prob _ O).
      + exact (own_before _ O).
    - unfold shown. cbn [w_models w_probs v_models v_probs]. f_equal. apply nth_error_ext. intros j.
      rewrite nth_error_map, change_at, nth_error_map, put_at_at by exact Li. rewrite (Nat.eqb_sym j i).
      destruct (Nat.eqb_spec i j) as [<-|N].
      + rewrite E. cbn [option_map]. f_equal. unfold load. cbn [w_dicts w_lists h_dict h_list h_rest].
        apply same_whole; [exact Dv|exact (proj2 Lv)].
      + destruct (nth_error (w_models w) j) as [h'|] eqn:E'; [|reflexivity]. cbn [option_map]. f_equal. unfold load.
        cbn [w_dicts w_lists]. rewrite (proj2 (Do _ _ E' (not_eq_sym N))), (proj2 (Ln _ (own_list _ O _ _ E'))). reflexivity.
  Qed.

  Lemma put_prob_owned : forall w k p o, owned w -> nth_error (w_probs w) k = Some p ->
      let w' := set_probs (put_at k (mkProb (p_user p) (p_model p) o) (w_probs w)) w in
      owned w' /\ v_models (shown w') = v_models (shown w) /\
      v_probs (shown w') = change k (fun p => mkIdeal (ip_user p) (ip_model p) o) (v_probs (shown w)).
  Proof.
    intros w k p o O E w'. pose proof (some_lt _ _ _ _ E) as L. split; [|split].
    - constructor; cbn [w' set_probs w_models w_dicts w_lists w_probs];
        try first [exact (own_dict _ O)|exact (own_list _ O)|exact (own_sole _ O)].
      + intros k' p' E'. rewrite put_at_at in E' by exact L. destruct (Nat.eqb_spec k k');
          [injection E' as <-; exact (own_work _ O _ _ E)|exact (own_work _ O _ _ E')].
      + intros k' p' E'. rewrite put_at_at in E' by exact L. destruct (Nat.eqb_spec k k');
          [injection E' as <-; exact (own_user _ O _ _ E)|exact (own_user _ O _ _ E')].
      + intros k1 k2 p1 p2 E1 E2 D. rewrite put_at_at in E1, E2 by exact L.
        destruct (Nat.eqb_spec k k1) as [<-|], (Nat.eqb_spec k k2) as [<-|]; [reflexivity| | |].
        * injection E1 as <-. exact (own_prob _ O _ _ _ _ E E2 D).
        * injection E2 as <-. exact (own_prob _ O _ _ _ _ E1 E D).
        * exact (own_prob _ O _ _ _ _ E1 E2 D).
      + intros k' p' E'. rewrite put_at_at in E' by exact L. destruct (Nat.eqb_spec k k');
          [injection E' as <-; exact (own_before _ O _ _ E)|exact (own_before _ O _ _ E')].
    - reflexivity.
    - cbn [w' shown v_probs set_probs w_probs]. rewrite map_put by exact L. apply nth_error_ext. intros j.
      rewrite !change_at, nth_error_map. destruct (nth_error (w_probs w) j) as [q|] eqn:Eq; [|reflexivity].
      cbn [option_map]. destruct (Nat.eqb_spec j k) as [->|]; [|reflexivity]. rewrite E in Eq. injection Eq as <-. reflexivity.
  Qed.

  Lemma on_prob_matches : forall w k c, owned w -> matches (on_prob rebound k c w) (ideal_prob k c (shown w)).
  Proof.
    intros w k c O. unfold on_prob, ideal_prob, cbind, lookup at 1. rewrite shown_prob.
    destruct (nth_error (w_probs w) k) as [p|] eqn:E; cbn [option_map]; [|split; [exact O|split; reflexivity]].
    unfold lookup at 1. cbn [ip_model ip_user ip_rest]. rewrite shown_model. unfold model_at.
    destruct (nth_error (w_models w) (p_model p)) as [h|] eqn:Eh; [|split; [exact O|split; reflexivity]].
    set (o := set_o_model (load w h) (p_rest p)).
    destruct (put_prob_owned w k p (fst (c o)) O E) as [O' [Sm Sp]].
    pose proof (on_handle_matches _ (p_model p) (fun _ => (o_model (fst (c o)), snd (c o))) O') as [O2 [S2 R2]].
    unfold ideal_model in S2, R2. rewrite Sm, shown_model in S2, R2. unfold model_at in S2, R2. rewrite Eh in S2, R2.
    cbn [fst snd] in S2, R2. split; [exact O2|]. split; [|exact R2]. rewrite S2. cbn [fst]. rewrite Sp. reflexivity.
  Qed.

  Lemma each_matches : forall (f : nat -> cmd world unit) g,
      (forall j w, owned w -> matches (f j w) (g j (shown w))) ->
      forall l w, owned w -> matches (run_all f l w) (ideal_each g l (shown w)).
  Proof.
    intros f g H. induction l as [|j l IH]; intros w O; [split; [exact O|split; reflexivity]|]. cbn [run_all ideal_each].
    destruct (H j w O) as [O' [S' R']]. destruct (f j w) as [w' r], (g j (shown w)) as [v' r']. cbn [fst snd] in *. subst v' r'.
    destruct r; [apply IH; exact O'|split; [exact O'|split; reflexivity]].
  Qed.

  Lemma new_problem_matches : forall w i x_0 t_0 t_f, owned w ->
      matches (new_problem i x_0 t_0 t_f w) (ideal_step same (CProblem i x_0 t_0 t_f) (shown w)).
  Proof.
    intros w i x_0 t_0 t_f O. unfold new_problem, ideal_step, cbind. rewrite shown_model. unfold model_at.
    destruct (nth_error (w_models w) i) as [h|] eqn:E.
    2:{ unfold get_copy, cbind, lookup. rewrite E. split; [exact O|split; reflexivity]. }
    destruct (copy_matches w i h O E) as [w' [-> [O' [E' [Len [Ld [Pr S']]]]]]]. unfold lookup. rewrite E', Ld.
    cbn [v_models v_probs]. destruct (new_ocp (load w h) x_0 t_0 t_f) as [o|e]; [|split; [exact O'|split; [exact S'|reflexivity]]].
    pose proof (some_lt _ _ _ _ E) as Li.
    split; [|split; [|reflexivity]]; cbn [fst].
    - constructor; cbn [set_probs w_models w_dicts w_lists w_probs];
        try first [exact (own_dict _ O')|exact (own_list _ O')|exact (own_sole _ O')].
      + intros k p Ep. destruct (snoc_at _ _ _ _ _ Ep) as [[_ F]|[_ ->]]; [exact (own_work _ O' _ _ F)|cbn; lia].
      + intros k p Ep. destruct (snoc_at _ _ _ _ _ Ep) as [[_ F]|[_ ->]]; [exact (own_user _ O' _ _ F)|cbn; lia].
      + intros k k' p p' Ep Ep' D. destruct (snoc_at _ _ _ _ _ Ep) as [[_ F]|[Hk ->]], (snoc_at _ _ _ _ _ Ep') as [[_ F']|[Hk' ->]].
        * exact (own_prob _ O' _ _ _ _ F F' D).
        * rewrite Pr in F. pose proof (own_work _ O _ _ F). cbn in D. lia.
        * rewrite Pr in F'. pose proof (own_work _ O _ _ F'). cbn in D. lia.
        * congruence.
      + intros k p Ep. destruct (snoc_at _ _ _ _ _ Ep) as [[_ F]|[_ ->]]; [exact (own_before _ O' _ _ F)|exact Li].
    - assert (Hm : length (v_models (shown w)) = length (w_models w)) by (cbn; apply map_length). rewrite Hm.
      assert (S1 : v_models (shown w') = v_models (shown w) ++ [load w h]) by (rewrite S'; reflexivity).
      assert (S2 : v_probs (shown w') = v_probs (shown w)) by (rewrite S'; reflexivity).
      transitivity (mkValues (v_models (shown w')) (v_probs (shown w') ++ [mkIdeal i (length (w_models w)) o])).
      + unfold shown at 1. cbn [set_probs w_models w_probs]. rewrite map_app. reflexivity.
      + rewrite S1, S2. reflexivity.
  Qed.

  Lemma reset_matches : forall w k, owned w ->
      matches (reset_working_model k w) (ideal_step same (CReset k) (shown w)).
  Proof.
    intros w k O. unfold reset_working_model, ideal_step, cbind, lookup at 1. rewrite shown_prob.
    destruct (nth_error (w_probs w) k) as [p|] eqn:E; cbn [option_map]; [|split; [exact O|split; reflexivity]].
    cbn [ip_user]. rewrite shown_model. unfold model_at.
    destruct (nth_error (w_models w) (p_user p)) as [h|] eqn:Eh.
    2:{ unfold get_copy, cbind, lookup. rewrite Eh. split; [exact O|split; reflexivity]. }
    destruct (copy_matches w (p_user p) h O Eh) as [w' [-> [O' [E' [Len [Ld [Pr S']]]]]]].
    pose proof (some_lt _ _ _ _ E) as Lk. pose proof (some_lt _ _ _ _ Eh) as Lu.
    split; [|split; [|reflexivity]]; cbn [fst].
    - constructor; cbn [set_probs w_models w_dicts w_lists w_probs]; rewrite ?Pr;
        try first [exact (own_dict _ O')|exact (own_list _ O')|exact (own_sole _ O')].
      + intros k' p' Ep. rewrite put_at_at in Ep by exact Lk. destruct (Nat.eqb_spec k k').
        * injection Ep as <-. cbn. lia.
        * pose proof (own_work _ O _ _ Ep). lia.
      + intros k' p' Ep. rewrite put_at_at in Ep by exact Lk. destruct (Nat.eqb_spec k k').
        * injection Ep as <-. cbn. lia.
        * pose proof (own_user _ O _ _ Ep). lia.
      + intros k1 k2 p1 p2 E1 E2 D. rewrite put_at_at in E1, E2 by exact Lk.
        destruct (Nat.eqb_spec k k1) as [<-|], (Nat.eqb_spec k k2) as [<-|]; [reflexivity| | |].
        * injection E1 as <-. pose proof (own_work _ O _ _ E2). cbn in D. lia.
        * injection E2 as <-. pose proof (own_work _ O _ _ E1). cbn in D. lia.
        * exact (own_prob _ O _ _ _ _ E1 E2 D).
      + intros k' p' Ep. rewrite put_at_at in Ep by exact Lk. destruct (Nat.eqb_spec k k').
        * injection Ep as <-. exact Lu.
        * exact (own_before _ O _ _ Ep).
    - assert (Hm : length (v_models (shown w)) = length (w_models w)) by (cbn; apply map_length). rewrite Hm.
      assert (S1 : v_models (shown w') = v_models (shown w) ++ [load w h]) by (rewrite S'; reflexivity).
      rewrite <- S1. unfold shown at 1. cbn [set_probs w_models w_probs]. rewrite Pr. f_equal.
      rewrite map_put by exact Lk. apply nth_error_ext. intros j. rewrite !change_at, shown_prob, nth_error_map.
      destruct (nth_error (w_probs w) j) as [q|] eqn:Eq; [|reflexivity]. cbn [option_map].
      destruct (Nat.eqb_spec j k) as [->|]; [|reflexivity]. rewrite E in Eq. injection Eq as <-. reflexivity.
  Qed.

  Lemma step_matches : forall c w, owned w -> matches (step same rebound c w) (ideal_step same c (shown w)).
  Proof.
    intros c w O. destruct c as [t tau|i|i f|i o|i others|i x_0 t_0 t_f|k o|k others|k]; cbn [step].
    - unfold cbind. destruct (add_matches w (new_model t tau) O) as [O' S']. cbn [ideal_step].
      destruct (add_model (new_model t tau) w) as [w' r] eqn:Ea. assert (Er : exists n, r = Ok n) by (cbn in Ea; injection Ea as _ <-; eauto).
      destruct Er as [n ->]. cbn in *. split; [exact O'|split; [exact S'|reflexivity]].
    - cbn [ideal_step]. rewrite shown_model. unfold model_at. unfold cbind. destruct (nth_error (w_models w) i) as [h|] eqn:E.
      + destruct (copy_matches w i h O E) as [w' [-> [O' [_ [_ [_ [_ S']]]]]]]. split; [exact O'|split; [exact S'|reflexivity]].
      + unfold get_copy, cbind, lookup. rewrite E. split; [exact O|split; reflexivity].
    - cbn [ideal_step]. rewrite shown_model. unfold model_at. unfold cbind at 1, lookup. destruct (nth_error (w_models w) i) as [h|] eqn:E.
      + destruct (get_deepcopy f (load w h)) as [m|e]; [|split; [exact O|split; reflexivity]].
        destruct (add_matches w m O) as [O' S']. split; [exact O'|split; [exact S'|reflexivity]].
      + split; [exact O|split; reflexivity].
    - apply on_handle_matches, O.
    - apply each_matches; [|exact O]. clear w O. intros j w O. unfold cbind, lookup. rewrite shown_model. unfold model_at.
      destruct (nth_error (w_models w) j) as [h|]; [apply on_handle_matches, O|split; [exact O|split; reflexivity]].
    - apply new_problem_matches, O.
    - apply on_prob_matches, O.
    - apply each_matches; [|exact O]. clear w O. intros j w O. unfold cbind, lookup. rewrite shown_prob.
      destruct (nth_error (w_probs w) j) as [q|]; cbn [option_map]; [|split; [exact O|split; reflexivity]].
      cbn [ip_model ip_rest]. rewrite shown_model. unfold model_at.
      destruct (nth_error (w_models w) (p_model q)) as [h|]; [apply on_prob_matches, O|split; [exact O|split; reflexivity]].
    - apply reset_matches, O.
  Qed.

  Lemma history_matches : forall calls w, owned w ->
      owned (history same rebound calls w) /\ shown (history same rebound calls w) = ideal_history same calls (shown w).
  Proof.
    induction calls as [|c calls IH]; intros w O; [split; [exact O|reflexivity]|]. cbn [history ideal_history].
    destruct (step_matches c w O) as [O' [S' _]]. rewrite <- S'. apply IH, O'.
  Qed.
  Lemma reached_owned : forall w, reached same rebound w -> owned w.
  Proof. intros w [calls ->]. exact (proj1 (history_matches calls nothing owned_nothing)). Qed.
End Calls.

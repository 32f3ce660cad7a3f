(** Proofs about the NLP builder. *)
From Verif Require Import Base BaseProofs ExprModel ExprProofs NlpModel NlpSpec.

(** ** Bound vectors *)

Lemma repmat_single : forall (A : Type) (a : A) n, repmat [a] n = repeat a n.
Proof. intros A a n. unfold repmat. induction n as [|n IH]; simpl; [reflexivity | f_equal; exact IH]. Qed.

Lemma nth_error_repeat_lt : forall (A : Type) (a : A) n i,
    (i < n)%nat -> nth_error (repeat a n) i = Some a.
Proof.
  intros A a n; induction n as [|n IH]; intros i H; [lia|].
  destruct i as [|i]; simpl; [reflexivity | apply IH; lia].
Qed.

(** A spread vector of the right length holds what was asked. *)
Lemma spread_asked : forall l n i,
    length (spread l n) = n -> (i < n)%nat -> nth_error (spread l n) i = asked (AVec l) i.
Proof.
  intros l n i Hlen Hi. unfold spread in *.
  destruct (Nat.eqb (length l) 1 && (1 <? n)%nat) eqn:E.
  - apply andb_true_iff in E. destruct E as [E _]. apply Nat.eqb_eq in E.
    destruct l as [|b [|c l]]; try discriminate. simpl.
    rewrite repmat_single. apply nth_error_repeat_lt, Hi.
  - destruct l as [|b [|c l]]; simpl; try reflexivity.
    simpl in Hlen. assert (i = 0) by lia. subst i. reflexivity.
Qed.

Lemma spread_single : forall b n i,
    length (spread [b] n) = n -> (i < n)%nat -> nth_error (spread [b] n) i = Some b.
Proof. intros b n i H Hi. rewrite spread_asked by assumption. reflexivity. Qed.

Lemma within_app : forall F env v1 l1 u1 v2 l2 u2,
    length v1 = length l1 -> length v1 = length u1 ->
    (within F env (v1 ++ v2) (l1 ++ l2) (u1 ++ u2) <->
     within F env v1 l1 u1 /\ within F env v2 l2 u2).
Proof.
  intros F env v1 l1 u1 v2 l2 u2 Hl Hu. unfold within. split.
  - intros H. split; intros i q l u Hq Hli Hui.
    + apply (H i); rewrite nth_error_app1; try assumption;
        apply nth_error_Some; congruence.
    + apply (H (length v1 + i)%nat).
      * rewrite nth_error_app2 by lia. replace (_ + i - _)%nat with i by lia. exact Hq.
      * rewrite Hl, nth_error_app2 by lia. replace (_ + i - _)%nat with i by lia. exact Hli.
      * rewrite Hu, nth_error_app2 by lia. replace (_ + i - _)%nat with i by lia. exact Hui.
  - intros [H1 H2] i q l u Hq Hli Hui.
    destruct (Nat.lt_ge_cases i (length v1)) as [Hi|Hi].
    + rewrite nth_error_app1 in Hq, Hli, Hui by lia. eapply H1; eassumption.
    + rewrite nth_error_app2 in Hq, Hli, Hui by lia.
      rewrite <- Hl in Hli. rewrite <- Hu in Hui. eapply H2; eassumption.
Qed.

Lemma within_nil : forall F env, within F env [] [] [].
Proof. intros F env i q l u H. destruct i; discriminate. Qed.

(** ** The ordering check *)

Lemma ext_ltb_false : forall a b, ext_ltb b a = false -> ext_le a b.
Proof.
  intros a b; destruct a, b; simpl; try tauto; try discriminate.
  intros H. apply negb_false_iff, Qle_bool_iff in H. exact H.
Qed.

Lemma ext_ltb_true : forall a b, ext_ltb b a = true -> ~ ext_le a b.
Proof.
  intros a b; destruct a, b; simpl; try tauto; try discriminate.
  intros H Hle. apply Qle_bool_iff in Hle. rewrite Hle in H. discriminate.
Qed.

Lemma bounds_loop_ordered : forall lb ub,
    bounds_loop lb ub = Ok tt -> ordered lb ub.
Proof.
  induction lb as [|l lb IH]; intros ub H i a b Ha Hb.
  - destruct i; discriminate.
  - destruct ub as [|u ub]; [destruct i; discriminate|]. simpl in H.
    destruct (bnd_gt l u) as [[|]|] eqn:E; try discriminate.
    destruct i as [|i]; simpl in *.
    + injection Ha as ->. injection Hb as ->. simpl in E. injection E as E.
      apply ext_ltb_false, E.
    + eapply IH; eassumption.
Qed.

Lemma ordered_app : forall l1 u1 l2 u2,
    length l1 = length u1 -> ordered l1 u1 -> ordered l2 u2 -> ordered (l1 ++ l2) (u1 ++ u2).
Proof.
  intros l1 u1 l2 u2 Hlen H1 H2 i a b Ha Hb.
  destruct (Nat.lt_ge_cases i (length l1)) as [Hi|Hi].
  - rewrite nth_error_app1 in Ha, Hb by lia. eapply H1; eassumption.
  - rewrite nth_error_app2 in Ha, Hb by lia. rewrite <- Hlen in Hb. eapply H2; eassumption.
Qed.

Lemma ext_le_refl : forall a, ext_le a a.
Proof. destruct a; simpl; try exact I. apply Qle_refl. Qed.

Lemma ordered_same : forall l, ordered l l.
Proof. intros l i a b Ha Hb. rewrite Ha in Hb. injection Hb as <-. apply ext_le_refl. Qed.

Lemma bnds_constant_nth : forall l i b, bnds_constant l = true -> nth_error l i = Some b ->
    bnd_constant b = true.
Proof.
  intros l i b H Hi. unfold bnds_constant in H. rewrite forallb_forall in H.
  apply H. eapply nth_error_In, Hi.
Qed.

(** When one of the two vectors is not constant the check is skipped, so the
    order of numeric pairs is only guaranteed for constant vectors. *)
Lemma inequality_loop_ordered : forall lb ub,
    inequality_loop lb ub = Ok tt -> bnds_constant lb = true -> bnds_constant ub = true ->
    ordered lb ub.
Proof.
  intros lb ub H Hl Hu. unfold inequality_loop in H. rewrite Hl, Hu in H. simpl in H.
  apply bounds_loop_ordered, H.
Qed.

(** ** One call *)

(** The state after an accepted call of the variable family. *)
Lemma include_variable_ok : forall v lb ub s s',
    include_variable v lb ub s = (s', Ok tt) ->
    exists lb0 ub0,
      variable_bound lb = Ok lb0 /\ variable_bound ub = Ok ub0 /\
      length (spread lb0 (length v)) = length v /\
      length (spread ub0 (length v)) = length v /\
      bounds_loop (spread lb0 (length v)) (spread ub0 (length v)) = Ok tt /\
      s' = mkNlp (nx s ++ v) (nx_lb s ++ spread lb0 (length v)) (nx_ub s ++ spread ub0 (length v))
                 (ng s) (ng_lb s) (ng_ub s) (np s) (nf s) (nsolver s).
Proof.
  intros v lb ub s s' H. unfold include_variable in H.
  destruct (variable_bound lb) as [lb0|] eqn:El; [|discriminate].
  destruct (variable_bound ub) as [ub0|] eqn:Eu; [|discriminate].
  destruct (negb _ || negb _) eqn:E1; [discriminate|].
  destruct ((negb _ && _) || _) eqn:E2; [discriminate|].
  destruct (bounds_loop _ _) as [[]|] eqn:E3; [|discriminate].
  apply orb_false_iff in E1. destruct E1 as [E1a E1b].
  apply negb_false_iff, Nat.eqb_eq in E1a. apply negb_false_iff, Nat.eqb_eq in E1b.
  exists lb0, ub0. injection H as <-.
  repeat split; try reflexivity; try (symmetry; assumption); assumption.
Qed.

Lemma include_variable_err : forall v lb ub s s' e,
    include_variable v lb ub s = (s', Raise e) -> s' = s.
Proof.
  intros v lb ub s s' e H. unfold include_variable in H.
  destruct (variable_bound lb); [destruct (variable_bound ub)|]; try (injection H; congruence).
  destruct (negb _ || negb _); [injection H; congruence|].
  destruct ((negb _ && _) || _); [injection H; congruence|].
  destruct (bounds_loop _ _); [discriminate | injection H; congruence].
Qed.

Lemma include_inequality_ok : forall cols e lb ub s s',
    include_inequality cols e lb ub s = (s', Ok tt) ->
    let lb1 := constraint_bound NInf lb (length e) in
    let ub1 := constraint_bound PInf ub (length e) in
    length lb1 = length e /\ length ub1 = length e /\
    inequality_loop lb1 ub1 = Ok tt /\
    s' = mkNlp (nx s) (nx_lb s) (nx_ub s) (ng s ++ e) (ng_lb s ++ lb1) (ng_ub s ++ ub1)
               (np s) (nf s) (nsolver s).
Proof.
  intros cols e lb ub s s' H. unfold include_inequality in H. cbv zeta.
  destruct (1 <? cols)%nat; [discriminate|].
  destruct (negb (length e =? length (constraint_bound NInf lb (length e)))%nat) eqn:E1; [discriminate|].
  destruct (negb (length e =? length (constraint_bound PInf ub (length e)))%nat) eqn:E2; [discriminate|].
  destruct (bnds_depend_on _ _); [discriminate|].
  destruct (inequality_loop _ _) as [[]|] eqn:E3; [|discriminate].
  apply negb_false_iff, Nat.eqb_eq in E1. apply negb_false_iff, Nat.eqb_eq in E2.
  injection H as <-. repeat split; congruence.
Qed.

Lemma include_inequality_err : forall cols e lb ub s s' x,
    include_inequality cols e lb ub s = (s', Raise x) -> s' = s.
Proof.
  intros cols e lb ub s s' x H. unfold include_inequality in H.
  destruct (1 <? cols)%nat; [injection H; congruence|].
  destruct (negb _); [injection H; congruence|].
  destruct (negb _); [injection H; congruence|].
  destruct (bnds_depend_on _ _); [injection H; congruence|].
  destruct (inequality_loop _ _); [discriminate | injection H; congruence].
Qed.

Definition rhs_vector (rhs : option barg) (n : nat) : list bnd :=
  match rhs with
  | None => repeat (BNum (Fin 0)) n
  | Some (AFloat x) => spread [BNum x] n
  | Some (AInt z) => spread [BNum (num_of_int z)] n
  | Some (AVec l) => spread l n
  end.

Lemma include_equality_ok : forall cols e rhs s s',
    include_equality cols e rhs s = (s', Ok tt) ->
    let r := rhs_vector rhs (length e) in
    length r = length e /\
    s' = mkNlp (nx s) (nx_lb s) (nx_ub s) (ng s ++ e) (ng_lb s ++ r) (ng_ub s ++ r)
               (np s) (nf s) (nsolver s).
Proof.
  intros cols e rhs s s' H. unfold include_equality in H. fold (rhs_vector rhs (length e)) in H.
  cbv zeta. set (r := rhs_vector rhs (length e)) in *.
  destruct (1 <? cols)%nat; [discriminate|].
  destruct (negb (length e =? length r)%nat) eqn:E1; [discriminate|].
  destruct (bnds_depend_on _ _); [discriminate|].
  apply negb_false_iff, Nat.eqb_eq in E1.
  injection H as <-. split; congruence.
Qed.

Lemma include_equality_err : forall cols e rhs s s' x,
    include_equality cols e rhs s = (s', Raise x) -> s' = s.
Proof.
  intros cols e rhs s s' x H. unfold include_equality in H.
  destruct (1 <? cols)%nat; [injection H; congruence|].
  destruct (negb _); [injection H; congruence|].
  destruct (bnds_depend_on _ _); [injection H; congruence | discriminate].
Qed.

Lemma include_constraint_err : forall F eqdm r s s' x,
    include_constraint F eqdm r s = (s', Raise x) -> s' = s.
Proof.
  intros F eqdm r s s' x H. unfold include_constraint in H.
  destruct (negb _ && negb _); [injection H; congruence|].
  destruct (forallb _ _ && forallb _ _); [injection H; congruence|].
  destruct (depends_on_vec _ _ && depends_on_vec _ _); [injection H; congruence|].
  destruct (forallb is_constant _); [|injection H; congruence].
  destruct (is_equality r); [eapply include_equality_err, H|].
  destruct (is_inequality r); [|discriminate].
  destruct (eqdm _ _); eapply include_inequality_err, H.
Qed.

Lemma solve_err : forall g cd p lx lg s s' x,
    solve g cd p lx lg s = (s', Raise x) -> s' = s.
Proof.
  intros g cd p lx lg s s' x H. unfold solve in H.
  destruct (get_solver_call_args s g cd p lx lg).
  - destruct (get_solver s); discriminate.
  - injection H; congruence.
Qed.

(** A rejected call changes nothing. *)
Lemma nlp_step_err : forall F eqdm o s s' e,
    nlp_step F eqdm o s = (s', Raise e) -> s' = s.
Proof.
  intros F eqdm o s s' e; destruct o; cbn [nlp_step]; intros H.
  - eapply include_variable_err, H.
  - eapply include_variable_err, H.
  - discriminate.
  - unfold set_objective in H. destruct (1 <? _)%nat; [injection H; congruence | discriminate].
  - eapply include_inequality_err, H.
  - eapply include_equality_err, H.
  - eapply include_constraint_err, H.
  - unfold forget in H. destruct (solve guess cd p lam_x lam_g s) as [s1 [a|x]] eqn:E; [discriminate|].
    injection H as -> <-. eapply solve_err, E.
Qed.

(** ** Alignment *)

Definition inv (s : nlp) : Prop := aligned s /\ ordered (nx_lb s) (nx_ub s).

Lemma inv_init : inv nlp_init.
Proof. split; [repeat split|]. intros [|i] a b H; discriminate. Qed.

Lemma inv_add_constraint : forall s e l u,
    aligned s -> length l = length e -> length u = length e ->
    aligned (mkNlp (nx s) (nx_lb s) (nx_ub s) (ng s ++ e) (ng_lb s ++ l) (ng_ub s ++ u)
                   (np s) (nf s) (nsolver s)).
Proof.
  intros s e l u [H1 [H2 [H3 H4]]] Hl Hu. unfold aligned; cbn [nx nx_lb nx_ub ng ng_lb ng_ub].
  rewrite !app_length. repeat split; lia.
Qed.

Lemma include_constraint_ok : forall F eqdm r s s',
    include_constraint F eqdm r s = (s', Ok tt) ->
    exists e l u, length l = length e /\ length u = length e /\
      s' = mkNlp (nx s) (nx_lb s) (nx_ub s) (ng s ++ e) (ng_lb s ++ l) (ng_ub s ++ u)
                 (np s) (nf s) (nsolver s).
Proof.
  intros F eqdm r s s' H. unfold include_constraint in H.
  destruct (negb (is_inequality r) && negb (is_equality r)) eqn:E0; [discriminate|].
  destruct (forallb _ _ && forallb _ _); [discriminate|].
  destruct (depends_on_vec _ _ && depends_on_vec _ _); [discriminate|].
  destruct (forallb is_constant _); [|discriminate].
  destruct (is_equality r) eqn:Eq.
  - apply include_equality_ok in H. destruct H as [H1 H2]. eexists _, _, _.
    split; [exact H1|]. split; [exact H1 | exact H2].
  - destruct (is_inequality r) eqn:Ei; [|discriminate].
    destruct (eqdm _ _); apply include_inequality_ok in H; cbv zeta in H;
      destruct H as [H1 [H2 [_ H3]]]; eexists _, _, _; repeat split; try exact H3; assumption.
Qed.

Lemma inv_step_ok : forall F eqdm o s s',
    inv s -> nlp_step F eqdm o s = (s', Ok tt) -> inv s'.
Proof.
  intros F eqdm o s s' [Ha Ho] H.
  assert (Hvar : forall v lb ub, include_variable v lb ub s = (s', Ok tt) -> inv s').
  { intros v lb ub Hv. apply include_variable_ok in Hv.
    destruct Hv as [lb0 [ub0 [_ [_ [Hl [Hu [Hloop ->]]]]]]].
    destruct Ha as [H1 [H2 [H3 H4]]]. split.
    - unfold aligned; cbn [nx nx_lb nx_ub ng ng_lb ng_ub]. rewrite !app_length.
      repeat split; lia.
    - cbn [nx_lb nx_ub]. apply ordered_app; [lia | exact Ho | apply bounds_loop_ordered, Hloop]. }
  destruct o; cbn [nlp_step] in H.
  - eapply Hvar, H.
  - eapply Hvar, H.
  - injection H as <-. split; assumption.
  - unfold set_objective in H. destruct (1 <? _)%nat; [discriminate|]. injection H as <-.
    split; assumption.
  - apply include_inequality_ok in H. cbv zeta in H. destruct H as [H1 [H2 [_ ->]]].
    split; [apply inv_add_constraint; assumption | exact Ho].
  - apply include_equality_ok in H. cbv zeta in H. destruct H as [H1 ->].
    split; [apply inv_add_constraint; assumption | exact Ho].
  - apply include_constraint_ok in H. destruct H as [e [l [u [H1 [H2 ->]]]]].
    split; [apply inv_add_constraint; assumption | exact Ho].
  - unfold forget, solve in H. destruct (get_solver_call_args _ _ _ _ _ _); [|discriminate].
    unfold get_solver in H. destruct (nsolver s); injection H as <-; split; assumption.
Qed.

Lemma inv_step : forall F eqdm o s, inv s -> inv (fst (nlp_step F eqdm o s)).
Proof.
  intros F eqdm o s H. destruct (nlp_step F eqdm o s) as [s' [[]|e]] eqn:E; simpl.
  - eapply inv_step_ok; eassumption.
  - apply nlp_step_err in E. subst. exact H.
Qed.

Lemma inv_reachable : forall F eqdm ops, inv (run_caught (nlp_step F eqdm) ops nlp_init).
Proof.
  intros F eqdm ops. apply (run_caught_inv _ _ _ (nlp_step F eqdm) inv).
  - intros o s; apply inv_step.
  - apply inv_init.
Qed.

Lemma numbers_constant : forall l, (forall b, In b l -> exists x, b = BNum x) ->
    bnds_constant l = true.
Proof.
  intros l H. apply forallb_forall. intros b Hb. destruct (H b Hb) as [x ->]. reflexivity.
Qed.

Lemma bnds_constant_repeat : forall x n, bnds_constant (repeat (BNum x) n) = true.
Proof. intros x n; induction n as [|n IH]; [reflexivity | exact IH]. Qed.

Lemma bnds_constant_concat : forall l n, bnds_constant l = true ->
    bnds_constant (concat (repeat l n)) = true.
Proof.
  intros l n H; induction n as [|n IH]; [reflexivity|]. simpl.
  unfold bnds_constant in *. rewrite forallb_app, H. exact IH.
Qed.

Lemma spread_constant : forall l n, bnds_constant l = true -> bnds_constant (spread l n) = true.
Proof.
  intros l n H. unfold spread. destruct (_ && _); [apply bnds_constant_concat|]; exact H.
Qed.

Lemma constraint_bound_constant : forall d a n, numeric_arg a ->
    bnds_constant (constraint_bound d a n) = true.
Proof.
  intros d [[x|z|l]|] n H; simpl in *.
  - apply spread_constant; reflexivity.
  - apply spread_constant; reflexivity.
  - apply spread_constant, numbers_constant, H.
  - apply bnds_constant_repeat.
Qed.

Lemma to_DM_numbers : forall F es b, In b (to_DM F es) -> exists x, b = BNum x.
Proof.
  intros F es b H. apply in_map_iff in H. destruct H as [e [<- _]]. eexists; reflexivity.
Qed.

Lemma include_inequality_ordered : forall cols e lb ub s s',
    aligned s -> ordered (ng_lb s) (ng_ub s) -> numeric_arg lb -> numeric_arg ub ->
    include_inequality cols e lb ub s = (s', Ok tt) -> ordered (ng_lb s') (ng_ub s').
Proof.
  intros cols e lb ub s s' [_ [_ [H3 H4]]] Ho Hl Hu H.
  apply include_inequality_ok in H. cbv zeta in H. destruct H as [Hx [Hy [Hloop ->]]].
  cbn [ng_lb ng_ub]. apply ordered_app; [lia | exact Ho|].
  apply inequality_loop_ordered; [exact Hloop | |]; apply constraint_bound_constant; assumption.
Qed.

Lemma include_equality_ordered : forall cols e rhs s s',
    aligned s -> ordered (ng_lb s) (ng_ub s) ->
    include_equality cols e rhs s = (s', Ok tt) -> ordered (ng_lb s') (ng_ub s').
Proof.
  intros cols e rhs s s' [_ [_ [H3 H4]]] Ho H.
  apply include_equality_ok in H. cbv zeta in H. destruct H as [Hx ->].
  cbn [ng_lb ng_ub]. apply ordered_app; [lia | exact Ho | apply ordered_same].
Qed.

Lemma ordered_constraints : forall F eqdm ops s,
    inv s -> ordered (ng_lb s) (ng_ub s) -> Forall numeric_op ops ->
    ordered (ng_lb (run_caught (nlp_step F eqdm) ops s))
            (ng_ub (run_caught (nlp_step F eqdm) ops s)).
Proof.
  intros F eqdm ops; induction ops as [|o ops IH]; intros s Hinv Ho Hops; [exact Ho|].
  inversion Hops as [|? ? Hop Hops']; subst.
  change (run_caught (nlp_step F eqdm) (o :: ops) s)
    with (run_caught (nlp_step F eqdm) ops (fst (nlp_step F eqdm o s))).
  apply IH; [apply inv_step, Hinv | | exact Hops'].
  destruct (nlp_step F eqdm o s) as [s' [[]|e]] eqn:E; cbn [fst].
  2:{ apply nlp_step_err in E. subst. exact Ho. }
  destruct Hinv as [Ha _].
  destruct o; cbn [nlp_step] in E.
  - apply include_variable_ok in E. destruct E as [? [? [_ [_ [_ [_ [_ ->]]]]]]]. exact Ho.
  - apply include_variable_ok in E. destruct E as [? [? [_ [_ [_ [_ [_ ->]]]]]]]. exact Ho.
  - injection E as <-. exact Ho.
  - unfold set_objective in E. destruct (1 <? _)%nat; [discriminate|]. injection E as <-. exact Ho.
  - destruct Hop as [Hl Hu]. exact (include_inequality_ordered _ _ _ _ _ _ Ha Ho Hl Hu E).
  - exact (include_equality_ordered _ _ _ _ _ Ha Ho E).
  - unfold include_constraint in E.
    destruct (negb (is_inequality r) && negb (is_equality r)); [discriminate|].
    destruct (forallb _ _ && forallb _ _); [discriminate|].
    destruct (depends_on_vec _ _ && depends_on_vec _ _); [discriminate|].
    destruct (forallb is_constant _); [|discriminate].
    destruct (is_equality r); [eapply include_equality_ordered; eassumption|].
    destruct (is_inequality r).
    + destruct (eqdm _ _); eapply include_inequality_ordered; try eassumption;
        first [exact I | exact (to_DM_numbers _ _)].
    + injection E as <-. exact Ho.
  - unfold forget, solve in E. destruct (get_solver_call_args _ _ _ _ _ _); [|discriminate].
    unfold get_solver in E. destruct (nsolver s); injection E as <-; exact Ho.
Qed.

(** ** Feasible set *)

Section Feasible.
  Variable F : nat -> Q -> Q.
  Variable env : sym -> Q.

  Lemma variable_bound_asked : forall a l i n,
      variable_bound a = Ok l -> length (spread l n) = n -> (i < n)%nat ->
      nth_error (spread l n) i = asked a i.
  Proof.
    intros a l i n H Hlen Hi. destruct a as [e|z|l']; simpl in H; try discriminate;
      injection H as <-.
    - rewrite spread_single by assumption. reflexivity.
    - apply spread_asked; assumption.
  Qed.

  Lemma nth_error_len_Some : forall (A : Type) (l : list A) i,
      (i < length l)%nat -> exists a, nth_error l i = Some a.
  Proof.
    intros A l i H. destruct (nth_error l i) as [a|] eqn:E; [exists a; reflexivity|].
    apply nth_error_None in E. lia.
  Qed.

  (** Componentwise bounds against the request, for any vector of values. *)
  Lemma within_asked : forall (A : Type) (val : A -> Q) (v : list A) lb ub,
      length lb = length v -> length ub = length v ->
      (within F env (map val v) lb ub <->
       forall i x, nth_error v i = Some x ->
         (forall b, nth_error lb i = Some b -> ext_le (bnd_value F env b) (Fin (val x))) /\
         (forall b, nth_error ub i = Some b -> ext_le (Fin (val x)) (bnd_value F env b))).
  Proof.
    intros A val v lb ub Hl Hu. unfold within. split.
    - intros H i x Hx.
      assert (Hi : (i < length v)%nat) by (apply nth_error_Some; congruence).
      destruct (nth_error_len_Some _ lb i) as [l El]; [lia|].
      destruct (nth_error_len_Some _ ub i) as [u Eu]; [lia|].
      assert (Hq : nth_error (map val v) i = Some (val x)) by (apply map_nth_error, Hx).
      destruct (H i (val x) l u Hq El Eu) as [H1 H2].
      split; intros b Hb; congruence.
    - intros H i q l u Hq Hli Hui. rewrite nth_error_map in Hq.
      destruct (nth_error v i) as [x|] eqn:Ex; [|discriminate].
      injection Hq as <-. destruct (H i x Ex) as [H1 H2]. split; [apply H1, Hli | apply H2, Hui].
  Qed.

  Lemma feasible_variable : forall v lb ub s s',
      aligned s -> include_variable v lb ub s = (s', Ok tt) ->
      (feasible F env s' <-> feasible F env s /\ satisfies F env (NIncludeVariable v lb ub)).
  Proof.
    intros v lb ub s s' [H1 [H2 [H3 H4]]] H. apply include_variable_ok in H.
    destruct H as [lb0 [ub0 [El [Eu [Hl [Hu [_ ->]]]]]]].
    unfold feasible; cbn [nx nx_lb nx_ub ng ng_lb ng_ub].
    rewrite map_app, within_app by (rewrite map_length; assumption).
    rewrite (within_asked _ env v) by assumption.
    cbn [satisfies above below].
    split.
    - intros [[Ha Hb] Hc]. split; [split; assumption|].
      intros i x Hx. destruct (Hb i x Hx) as [Hb1 Hb2].
      assert (Hi : (i < length v)%nat) by (apply nth_error_Some; congruence).
      split; intros b Hbb; [apply Hb1 | apply Hb2].
      + rewrite (variable_bound_asked _ _ _ _ El) by assumption; exact Hbb.
      + rewrite (variable_bound_asked _ _ _ _ Eu) by assumption; exact Hbb.
    - intros [[Ha Hc] Hb]. split; [split; [exact Ha|] | exact Hc].
      intros i x Hx. destruct (Hb i x Hx) as [Hb1 Hb2].
      assert (Hi : (i < length v)%nat) by (apply nth_error_Some; congruence).
      split; intros b Hbb.
      + rewrite (variable_bound_asked _ _ _ _ El) in Hbb by assumption. apply Hb1, Hbb.
      + rewrite (variable_bound_asked _ _ _ _ Eu) in Hbb by assumption. apply Hb2, Hbb.
  Qed.

  Lemma constraint_bound_asked : forall d a n i,
      length (constraint_bound d a n) = n -> (i < n)%nat ->
      nth_error (constraint_bound d a n) i =
      match a with None => Some (BNum d) | Some x => asked x i end.
  Proof.
    intros d [[x|z|l]|] n i Hlen Hi; simpl in *.
    - apply spread_single; assumption.
    - apply spread_single; assumption.
    - apply spread_asked; assumption.
    - apply nth_error_repeat_lt, Hi.
  Qed.

  Lemma above_iff : forall lb n i q,
      length (constraint_bound NInf lb n) = n -> (i < n)%nat ->
      ((forall b, nth_error (constraint_bound NInf lb n) i = Some b ->
          ext_le (bnd_value F env b) (Fin q)) <-> above F env lb i q).
  Proof.
    intros lb n i q Hlen Hi. rewrite constraint_bound_asked by assumption.
    destruct lb as [a|]; cbn [above]; [tauto|].
    split; [intros _; exact I|]. intros _ b Hb; injection Hb as <-; exact I.
  Qed.

  Lemma below_iff : forall ub n i q,
      length (constraint_bound PInf ub n) = n -> (i < n)%nat ->
      ((forall b, nth_error (constraint_bound PInf ub n) i = Some b ->
          ext_le (Fin q) (bnd_value F env b)) <-> below F env ub i q).
  Proof.
    intros ub n i q Hlen Hi. rewrite constraint_bound_asked by assumption.
    destruct ub as [a|]; cbn [below]; [tauto|].
    split; [intros _; exact I|]. intros _ b Hb; injection Hb as <-; exact I.
  Qed.

  Lemma feasible_inequality : forall cols e lb ub s s',
      aligned s -> include_inequality cols e lb ub s = (s', Ok tt) ->
      (feasible F env s' <-> feasible F env s /\ satisfies F env (NIncludeInequality cols e lb ub)).
  Proof.
    intros cols e lb ub s s' [H1 [H2 [H3 H4]]] H. apply include_inequality_ok in H.
    cbv zeta in H. destruct H as [Hl [Hu [_ ->]]].
    unfold feasible; cbn [nx nx_lb nx_ub ng ng_lb ng_ub].
    rewrite map_app, within_app by (rewrite map_length; assumption).
    rewrite (within_asked _ (eval F env) e) by assumption.
    cbn [satisfies].
    assert (Hiff : (forall i x, nth_error e i = Some x ->
         (forall b, nth_error (constraint_bound NInf lb (length e)) i = Some b ->
            ext_le (bnd_value F env b) (Fin (eval F env x))) /\
         (forall b, nth_error (constraint_bound PInf ub (length e)) i = Some b ->
            ext_le (Fin (eval F env x)) (bnd_value F env b))) <->
       (forall i x, nth_error e i = Some x ->
          above F env lb i (eval F env x) /\ below F env ub i (eval F env x))).
    { split; intros Hx i x Hi;
        assert (Hlt : (i < length e)%nat) by (apply nth_error_Some; congruence);
        specialize (Hx i x Hi).
      - rewrite <- (above_iff lb (length e)), <- (below_iff ub (length e)) by assumption. exact Hx.
      - rewrite (above_iff lb (length e)), (below_iff ub (length e)) by assumption. exact Hx. }
    tauto.
  Qed.

  Lemma rhs_asked : forall rhs n i,
      length (rhs_vector rhs n) = n -> (i < n)%nat ->
      nth_error (rhs_vector rhs n) i =
      match rhs with None => Some (BNum (Fin 0)) | Some x => asked x i end.
  Proof.
    intros [[x|z|l]|] n i Hlen Hi; simpl in *.
    - apply spread_single; assumption.
    - apply spread_single; assumption.
    - apply spread_asked; assumption.
    - apply nth_error_repeat_lt, Hi.
  Qed.

  Lemma ext_between_eq : forall x q,
      (ext_le x (Fin q) /\ ext_le (Fin q) x) <-> exists r, x = Fin r /\ (q == r)%Q.
  Proof.
    intros x q; destruct x as [|r|]; simpl.
    - split; [tauto | intros [r [H _]]; discriminate].
    - split.
      + intros [H1 H2]. exists r. split; [reflexivity | apply Qle_antisym; assumption].
      + intros [r' [H E]]. injection H as <-. rewrite E. split; apply Qle_refl.
    - split; [tauto | intros [r [H _]]; discriminate].
  Qed.

  Lemma feasible_equality : forall cols e rhs s s',
      aligned s -> include_equality cols e rhs s = (s', Ok tt) ->
      (feasible F env s' <-> feasible F env s /\ satisfies F env (NIncludeEquality cols e rhs)).
  Proof.
    intros cols e rhs s s' [H1 [H2 [H3 H4]]] H. apply include_equality_ok in H.
    cbv zeta in H. destruct H as [Hl ->].
    unfold feasible; cbn [nx nx_lb nx_ub ng ng_lb ng_ub].
    rewrite map_app, within_app by (rewrite map_length; assumption).
    rewrite (within_asked _ (eval F env) e) by assumption.
    cbn [satisfies].
    assert (Hiff : (forall i x, nth_error e i = Some x ->
         (forall b, nth_error (rhs_vector rhs (length e)) i = Some b ->
            ext_le (bnd_value F env b) (Fin (eval F env x))) /\
         (forall b, nth_error (rhs_vector rhs (length e)) i = Some b ->
            ext_le (Fin (eval F env x)) (bnd_value F env b))) <->
       (forall i x, nth_error e i = Some x -> equals F env rhs i (eval F env x))).
    { split; intros Hx i x Hi;
        assert (Hlt : (i < length e)%nat) by (apply nth_error_Some; congruence);
        specialize (Hx i x Hi).
      - pose proof (rhs_asked rhs (length e) i Hl Hlt) as Hr. destruct Hx as [Hx1 Hx2].
        destruct rhs as [a|]; cbn [equals].
        + intros b Hb. apply ext_between_eq. split; [apply Hx1 | apply Hx2]; congruence.
        + specialize (Hx1 _ Hr). specialize (Hx2 _ Hr).
          destruct (proj1 (ext_between_eq _ _) (conj Hx1 Hx2)) as [r [E1 E2]].
          simpl in E1. injection E1 as <-. exact E2.
      - pose proof (rhs_asked rhs (length e) i Hl Hlt) as Hr.
        destruct rhs as [a|]; cbn [equals] in Hx.
        + split; intros b Hb; rewrite Hr in Hb; apply Hx in Hb;
            apply ext_between_eq in Hb; tauto.
        + assert (Hz : exists r, Fin 0 = Fin r /\ (eval F env x == r)%Q)
            by (exists 0%Q; split; [reflexivity | exact Hx]).
          apply ext_between_eq in Hz.
          split; intros b Hb; rewrite Hr in Hb; injection Hb as <-; tauto. }
    tauto.
  Qed.

  (** Asked value of a constant vector. *)
  Lemma asked_to_DM : forall es i b,
      forallb is_constant es = true -> asked (AVec (to_DM F es)) i = Some b ->
      exists e, side es i = Some e /\ b = BNum (Fin (eval F env e)).
  Proof.
    intros es i b Hc H. unfold to_DM in H.
    destruct es as [|e [|e2 es]].
    - destruct i; discriminate.
    - simpl in *. injection H as <-. exists e. split; [reflexivity|].
      apply andb_true_iff in Hc. destruct Hc as [Hc _].
      rewrite (is_constant_eval F (fun _ => 0%Q) env e Hc). reflexivity.
    - set (l := e :: e2 :: es) in *.
      assert (H' : nth_error (map (fun e => BNum (Fin (eval F (fun _ => 0%Q) e))) l) i = Some b)
        by exact H. clear H.
      rewrite nth_error_map in H'. destruct (nth_error l i) as [x|] eqn:Ex; [|discriminate].
      injection H' as <-. exists x. split; [exact Ex|].
      rewrite forallb_forall in Hc.
      rewrite (is_constant_eval F (fun _ => 0%Q) env x); [reflexivity|].
      apply Hc. eapply nth_error_In, Ex.
  Qed.

  Lemma side_to_DM : forall es i e,
      forallb is_constant es = true -> side es i = Some e ->
      asked (AVec (to_DM F es)) i = Some (BNum (Fin (eval F env e))).
  Proof.
    intros es i e Hc H. rewrite forallb_forall in Hc. unfold to_DM.
    destruct es as [|e1 [|e2 es]].
    - destruct i; discriminate.
    - simpl in *. injection H as <-.
      rewrite (is_constant_eval F (fun _ => 0%Q) env e1); [reflexivity | apply Hc; left; reflexivity].
    - set (l := e1 :: e2 :: es) in *.
      assert (H' : nth_error l i = Some e) by exact H. clear H.
      change (nth_error (map (fun e => BNum (Fin (eval F (fun _ => 0%Q) e))) l) i
              = Some (BNum (Fin (eval F env e)))).
      rewrite nth_error_map, H'. simpl.
      rewrite (is_constant_eval F (fun _ => 0%Q) env e); [reflexivity|].
      apply Hc. eapply nth_error_In, H'.
  Qed.

  (** A scalar or a vector of the right length, spread over [n] components. *)
  Lemma spread_length_cases : forall (l : list bnd) n,
      length (spread l n) = n -> length l = n \/ length l = 1.
  Proof.
    intros l n H. unfold spread in H. destruct (Nat.eqb (length l) 1 && (1 <? n)%nat) eqn:E.
    - apply andb_true_iff in E. destruct E as [E _]. right. apply Nat.eqb_eq, E.
    - left. exact H.
  Qed.

  Lemma side_lt : forall es i, (i < length es)%nat -> nth_error es i = side es i.
  Proof.
    intros es i H. destruct es as [|e [|e2 es]]; try reflexivity.
    simpl in H. assert (i = 0) by lia. subst. reflexivity.
  Qed.

  (** For a relation whose varying side [dep] has [n] components and whose
      constant side spreads over them, quantifying over components of the
      relation is quantifying over components of [dep]. *)
  Lemma rel_components : forall dep con (P : expr -> expr -> Prop),
      forallb is_constant con = true ->
      length (spread (to_DM F con) (length dep)) = length dep ->
      ((forall i a b, (i < max (length dep) (length con))%nat ->
          side dep i = Some a -> side con i = Some b -> P a b) <->
       (forall i a b, nth_error dep i = Some a -> side con i = Some b -> P a b)).
  Proof.
    intros dep con P Hc Hlen.
    assert (Hcon : length con = length dep \/ length con = 1).
    { apply spread_length_cases in Hlen. unfold to_DM in Hlen. rewrite map_length in Hlen. exact Hlen. }
    split; intros H i a b.
    - intros Ha Hb. assert (Hi : (i < length dep)%nat) by (apply nth_error_Some; congruence).
      apply (H i a b); [lia | rewrite <- side_lt by exact Hi; exact Ha | exact Hb].
    - intros Hi Ha Hb.
      destruct (Nat.lt_ge_cases i (length dep)) as [Hlt|Hge].
      + apply (H i a b); [rewrite side_lt by exact Hlt; exact Ha | exact Hb].
      + destruct Hcon as [Hcon|Hcon]; [lia|].
        assert (i = 0) by lia. subst i. assert (length dep = 0) by lia.
        destruct dep; discriminate.
  Qed.

  Lemma feasible_constraint : forall eqdm r s s',
      compares_values F eqdm ->
      aligned s -> include_constraint F eqdm r s = (s', Ok tt) ->
      (feasible F env s' <-> feasible F env s /\ satisfies F env (NIncludeConstraint r)).
  Proof.
    intros eqdm r s s' [Heq1 Heq2] Hal H. unfold include_constraint in H.
    destruct (negb (is_inequality r) && negb (is_equality r)) eqn:E0; [discriminate|].
    destruct (forallb is_constant (r_dep0 r) && forallb is_constant (r_dep1 r)) eqn:E1; [discriminate|].
    destruct (depends_on_vec (r_dep0 r) _ && depends_on_vec (r_dep1 r) _); [discriminate|].
    cbn [satisfies]. unfold rel_holds.
    destruct r as [op d0 d1]; unfold is_equality, is_inequality in *; simpl in *.
    set (b0 := depends_on_vec d0 (nx s ++ np s)) in *.
    destruct b0.
    - (* the varying side is on the left *)
      destruct (forallb is_constant d1) eqn:Ec; [|discriminate].
      destruct op; try discriminate.
      + pose proof (include_equality_ok _ _ _ _ _ H) as Hok. cbv zeta in Hok.
        destruct Hok as [Hlen _]. simpl in Hlen.
        rewrite (feasible_equality _ _ _ _ _ Hal H). cbn [satisfies].
        rewrite (rel_components d0 d1 (fun a b => (eval F env a == eval F env b)%Q) Ec Hlen).
        split; intros [Hf Hx]; (split; [exact Hf|]).
        * intros i a b Ha Hb. specialize (Hx i a Ha). cbn [equals] in Hx.
          destruct (Hx _ (side_to_DM d1 i b Ec Hb)) as [q [Eq1 Eq2]].
          simpl in Eq1. injection Eq1 as <-. exact Eq2.
        * intros i a Ha. cbn [equals]. intros b Hb.
          destruct (asked_to_DM d1 i b Ec Hb) as [e [He ->]].
          exists (eval F env e). split; [reflexivity | eapply Hx; eassumption].
      + rewrite (Heq1 d1 Ec) in H.
        pose proof (include_inequality_ok _ _ _ _ _ _ H) as Hok. cbv zeta in Hok.
        destruct Hok as [_ [Hlen _]]. simpl in Hlen.
        rewrite (feasible_inequality _ _ _ _ _ _ Hal H). cbn [satisfies].
        rewrite (rel_components d0 d1 (fun a b => (eval F env a <= eval F env b)%Q) Ec Hlen).
        split; intros [Hf Hx]; (split; [exact Hf|]).
        * intros i a b Ha Hb. destruct (Hx i a Ha) as [_ Hy]. cbn [below] in Hy.
          exact (Hy _ (side_to_DM d1 i b Ec Hb)).
        * intros i a Ha. split; [exact I|]. cbn [below]. intros b Hb.
          destruct (asked_to_DM d1 i b Ec Hb) as [e [He ->]]. simpl. eapply Hx; eassumption.
    - (* the varying side is on the right *)
      destruct (forallb is_constant d0) eqn:Ec; [|discriminate].
      simpl in E1.
      assert (Hswap : forall P : expr -> expr -> Prop,
        (forall i a b, (i < max (length d0) (length d1))%nat ->
            side d0 i = Some a -> side d1 i = Some b -> P a b) <->
        (forall i a b, (i < max (length d1) (length d0))%nat ->
            side d1 i = Some a -> side d0 i = Some b -> P b a)).
      { intros P; split; intros Hp i a b Hi Ha Hb; apply (Hp i); try assumption; lia. }
      destruct op; try discriminate.
      + pose proof (include_equality_ok _ _ _ _ _ H) as Hok. cbv zeta in Hok.
        destruct Hok as [Hlen _]. simpl in Hlen.
        rewrite (feasible_equality _ _ _ _ _ Hal H). cbn [satisfies].
        rewrite (Hswap (fun a b => (eval F env a == eval F env b)%Q)).
        rewrite (rel_components d1 d0 (fun a b => (eval F env b == eval F env a)%Q) Ec Hlen).
        split; intros [Hf Hx]; (split; [exact Hf|]).
        * intros i a b Ha Hb. specialize (Hx i a Ha). cbn [equals] in Hx.
          destruct (Hx _ (side_to_DM d0 i b Ec Hb)) as [q [Eq1 Eq2]].
          simpl in Eq1. injection Eq1 as <-. symmetry; exact Eq2.
        * intros i a Ha. cbn [equals]. intros b Hb.
          destruct (asked_to_DM d0 i b Ec Hb) as [e [He ->]].
          exists (eval F env e). split; [reflexivity | symmetry; eapply Hx; eassumption].
      + rewrite (Heq2 _ d1 E1) in H.
        pose proof (include_inequality_ok _ _ _ _ _ _ H) as Hok. cbv zeta in Hok.
        destruct Hok as [Hlen _]. simpl in Hlen.
        rewrite (feasible_inequality _ _ _ _ _ _ Hal H). cbn [satisfies].
        rewrite (Hswap (fun a b => (eval F env a <= eval F env b)%Q)).
        rewrite (rel_components d1 d0 (fun a b => (eval F env b <= eval F env a)%Q) Ec Hlen).
        split; intros [Hf Hx]; (split; [exact Hf|]).
        * intros i a b Ha Hb. destruct (Hx i a Ha) as [Hy _]. cbn [above] in Hy.
          exact (Hy _ (side_to_DM d0 i b Ec Hb)).
        * intros i a Ha. split; [|exact I]. cbn [above]. intros b Hb.
          destruct (asked_to_DM d0 i b Ec Hb) as [e [He ->]]. simpl. eapply Hx; eassumption.
  Qed.

  Lemma create_variable_satisfies : forall v lb ub s s',
      aligned s -> create_variable v lb ub s = (s', Ok tt) ->
      (feasible F env s' <-> feasible F env s /\ satisfies F env (NCreateVariable v lb ub)).
  Proof.
    intros v lb ub s s' Hal H. unfold create_variable in H.
    set (widen := fun a => match a with
                 | AFloat e => AVec (repmat [BNum e] (length v))
                 | AInt z => AVec (repmat [BNum (num_of_int z)] (length v))
                 | AVec l => AVec l
                 end) in *.
    rewrite (feasible_variable v (widen lb) (widen ub) s s' Hal H). cbn [satisfies above below].
    assert (Hw : forall a i, (i < length v)%nat ->
               asked (widen a) i = asked a i).
    { intros a i Hi. destruct a as [e|z|l]; simpl; try reflexivity;
        rewrite repmat_single;
        (destruct (length v) as [|[|n]]; [lia | reflexivity |]);
        apply nth_error_repeat_lt; exact Hi. }
    split; intros [Hf Hx]; (split; [exact Hf|]); intros i x Hi;
      assert (Hlt : (i < length v)%nat) by (apply nth_error_Some; congruence);
      specialize (Hx i x Hi); rewrite !Hw in * by exact Hlt; exact Hx.
  Qed.

  Lemma feasible_step : forall eqdm o s s',
      compares_values F eqdm -> aligned s ->
      nlp_step F eqdm o s = (s', Ok tt) ->
      (feasible F env s' <-> feasible F env s /\ satisfies F env o).
  Proof.
    intros eqdm o s s' Hc Hal H. destruct o; cbn [nlp_step] in H.
    - eapply create_variable_satisfies; eassumption.
    - eapply feasible_variable; eassumption.
    - injection H as <-. cbn [satisfies]. unfold feasible; simpl. tauto.
    - unfold set_objective in H. destruct (1 <? _)%nat; [discriminate|]. injection H as <-.
      cbn [satisfies]. unfold feasible; simpl. tauto.
    - eapply feasible_inequality; eassumption.
    - eapply feasible_equality; eassumption.
    - eapply feasible_constraint; eassumption.
    - unfold forget, solve in H. destruct (get_solver_call_args _ _ _ _ _ _); [|discriminate].
      unfold get_solver in H. destruct (nsolver s); injection H as <-;
        cbn [satisfies]; unfold feasible; simpl; tauto.
  Qed.

  Lemma feasible_history : forall eqdm ops s,
      compares_values F eqdm -> inv s ->
      (feasible F env (run_caught (nlp_step F eqdm) ops s) <->
       feasible F env s /\ Forall (satisfies F env) (accepted (nlp_step F eqdm) ops s)).
  Proof.
    intros eqdm ops; induction ops as [|o ops IH]; intros s Hc Hinv.
    - simpl. split; [intros H; split; [exact H | constructor] | intros [H _]; exact H].
    - change (run_caught (nlp_step F eqdm) (o :: ops) s)
        with (run_caught (nlp_step F eqdm) ops (fst (nlp_step F eqdm o s))).
      rewrite IH; [|exact Hc | apply inv_step, Hinv]. cbn [accepted].
      destruct (nlp_step F eqdm o s) as [s' [[]|e]] eqn:E; cbn [fst].
      + rewrite (feasible_step eqdm o s s' Hc (proj1 Hinv) E).
        rewrite Forall_cons_iff. tauto.
      + apply nlp_step_err in E. subst. tauto.
  Qed.

  Lemma feasible_from_scratch : forall eqdm ops,
      compares_values F eqdm ->
      (feasible F env (run_caught (nlp_step F eqdm) ops nlp_init) <->
       Forall (satisfies F env) (accepted (nlp_step F eqdm) ops nlp_init)).
  Proof.
    intros eqdm ops Hc. rewrite feasible_history; [|exact Hc | apply inv_init].
    assert (Hi : feasible F env nlp_init) by (split; apply within_nil). tauto.
  Qed.
End Feasible.

(** ** Relational recognition *)

Lemma strict_rejected : forall F eqdm r s,
    r_op r = OpLt -> include_constraint F eqdm r s = (s, Raise ValueError).
Proof. intros F eqdm [op d0 d1] s H; simpl in H; subst. reflexivity. Qed.

(** ** Solver calls *)

Lemma ckey_eqb_eq : forall a b, ckey_eqb a b = true <-> a = b.
Proof.
  intros a b; destruct a, b; simpl; split; intros H; try reflexivity; try discriminate.
  - apply Nat.eqb_eq in H. subst; reflexivity.
  - injection H as ->. apply Nat.eqb_refl.
Qed.

Lemma set_opt_same : forall k v d,
    dget ckey_eqb k (set_opt k v d) = match v with Some x => Some x | None => dget ckey_eqb k d end.
Proof.
  intros k [x|] d; simpl; [|reflexivity]. apply dget_dset_same. exact ckey_eqb_eq.
Qed.

Lemma set_opt_other : forall k k' v d, k <> k' ->
    dget ckey_eqb k (set_opt k' v d) = dget ckey_eqb k d.
Proof.
  intros k k' [x|] d H; simpl; [|reflexivity]. apply dget_dset_other; [exact ckey_eqb_eq | exact H].
Qed.

Lemma call_args_spec : forall s guess cd p lam_x lam_g,
    let base := match cd with Some d => d | None => get_default_call_dict s end in
    let pv := match p with Some v => v | None => [] end in
    match get_solver_call_args s guess cd p lam_x lam_g with
    | Raise e => e = ValueError /\ length pv <> length (np s)
    | Ok args =>
        length pv = length (np s) /\
        dget ckey_eqb PKey args = Some pv /\
        dget ckey_eqb X0 args = match guess with Some g => Some g | None => dget ckey_eqb X0 base end /\
        dget ckey_eqb LamX0 args = match lam_x with Some g => Some g | None => dget ckey_eqb LamX0 base end /\
        dget ckey_eqb LamG0 args = match lam_g with Some g => Some g | None => dget ckey_eqb LamG0 base end /\
        (forall k, k <> PKey -> k <> X0 -> k <> LamX0 -> k <> LamG0 ->
           dget ckey_eqb k args = dget ckey_eqb k base)
    end.
Proof.
  intros s guess cd p lam_x lam_g. cbv zeta. unfold get_solver_call_args.
  set (base := match cd with Some d => d | None => get_default_call_dict s end).
  set (pv := match p with Some v => v | None => [] end).
  destruct (length pv =? length (np s))%nat eqn:E; simpl.
  - apply Nat.eqb_eq in E. split; [exact E|].
    split; [apply dget_dset_same, ckey_eqb_eq|].
    assert (Hp : forall k, k <> PKey -> forall d,
        dget ckey_eqb k (dset ckey_eqb PKey pv d) = dget ckey_eqb k d)
      by (intros k Hk d; apply dget_dset_other; [exact ckey_eqb_eq | exact Hk]).
    split; [|split; [|split]].
    + rewrite Hp by discriminate. rewrite !set_opt_other by discriminate. apply set_opt_same.
    + rewrite Hp by discriminate. rewrite set_opt_other by discriminate.
      rewrite set_opt_same. destruct lam_x; [reflexivity|]. apply set_opt_other. discriminate.
    + rewrite Hp by discriminate. rewrite set_opt_same. destruct lam_g; [reflexivity|].
      rewrite !set_opt_other by discriminate. reflexivity.
    + intros k H1 H2 H3 H4. rewrite Hp by exact H1. rewrite !set_opt_other by assumption. reflexivity.
  - apply Nat.eqb_neq in E. split; [reflexivity | exact E].
Qed.

(** The solver never changes once created. *)
Lemma solver_kept : forall F eqdm ops s f,
    nsolver s = Some f -> nsolver (run_caught (nlp_step F eqdm) ops s) = Some f.
Proof.
  intros F eqdm ops; induction ops as [|o ops IH]; intros s f Hs; [exact Hs|].
  change (run_caught (nlp_step F eqdm) (o :: ops) s)
    with (run_caught (nlp_step F eqdm) ops (fst (nlp_step F eqdm o s))).
  apply IH. destruct (nlp_step F eqdm o s) as [s' [[]|e]] eqn:E; cbn [fst].
  2:{ apply nlp_step_err in E. subst. exact Hs. }
  destruct o; cbn [nlp_step] in E.
  - apply include_variable_ok in E. destruct E as [? [? [_ [_ [_ [_ [_ ->]]]]]]]. exact Hs.
  - apply include_variable_ok in E. destruct E as [? [? [_ [_ [_ [_ [_ ->]]]]]]]. exact Hs.
  - injection E as <-. exact Hs.
  - unfold set_objective in E. destruct (1 <? _)%nat; [discriminate|]. injection E as <-. exact Hs.
  - apply include_inequality_ok in E. destruct E as [_ [_ [_ ->]]]. exact Hs.
  - apply include_equality_ok in E. destruct E as [_ ->]. exact Hs.
  - apply include_constraint_ok in E. destruct E as [? [? [? [_ [_ ->]]]]]. exact Hs.
  - unfold forget, solve in E. destruct (get_solver_call_args _ _ _ _ _ _); [|discriminate].
    unfold get_solver in E. rewrite Hs in E. injection E as <-. exact Hs.
Qed.

(** The first accepted solve compiles the problem as it is then; later solves,
    after any calls, use that compiled problem. *)
Lemma solve_first : forall g cd p lx lg s s' f args,
    nsolver s = None -> solve g cd p lx lg s = (s', Ok (f, args)) ->
    f = current_solver s /\ nsolver s' = Some f.
Proof.
  intros g cd p lx lg s s' f args Hs H. unfold solve in H.
  destruct (get_solver_call_args _ _ _ _ _ _); [|discriminate].
  unfold get_solver in H. rewrite Hs in H. injection H as <- <- _. split; reflexivity.
Qed.

Lemma solve_later : forall F eqdm ops g cd p lx lg s f s' f' args,
    nsolver s = Some f ->
    solve g cd p lx lg (run_caught (nlp_step F eqdm) ops s) = (s', Ok (f', args)) ->
    f' = f.
Proof.
  intros F eqdm ops g cd p lx lg s f s' f' args Hs H.
  pose proof (solver_kept F eqdm ops s f Hs) as Hk. unfold solve in H.
  destruct (get_solver_call_args _ _ _ _ _ _); [|discriminate].
  unfold get_solver in H. rewrite Hk in H. injection H as _ <- _. reflexivity.
Qed.

(** ** Statements used by the property file *)

Lemma reachable_aligned : forall F eqdm ops,
    let s := run_caught (nlp_step F eqdm) ops nlp_init in
    aligned s /\ ordered (nx_lb s) (nx_ub s).
Proof. intros F eqdm ops. exact (inv_reachable F eqdm ops). Qed.

Lemma reachable_constraints_ordered : forall F eqdm ops,
    Forall numeric_op ops ->
    let s := run_caught (nlp_step F eqdm) ops nlp_init in
    ordered (ng_lb s) (ng_ub s).
Proof.
  intros F eqdm ops H. apply ordered_constraints; [apply inv_init | | exact H].
  intros [|i] a b Ha; discriminate.
Qed.

(** Requests only add at the end. *)
Lemma step_appends : forall F eqdm o s s',
    nlp_step F eqdm o s = (s', Ok tt) ->
    exists v vl vu g gl gu p,
      nx s' = nx s ++ v /\ nx_lb s' = nx_lb s ++ vl /\ nx_ub s' = nx_ub s ++ vu /\
      ng s' = ng s ++ g /\ ng_lb s' = ng_lb s ++ gl /\ ng_ub s' = ng_ub s ++ gu /\
      np s' = np s ++ p.
Proof.
  intros F eqdm o s s' H.
  assert (Hn : forall A (l : list A), l = l ++ []) by (intros; symmetry; apply app_nil_r).
  assert (Hv : forall v lb ub, include_variable v lb ub s = (s', Ok tt) ->
     exists v vl vu g gl gu p,
      nx s' = nx s ++ v /\ nx_lb s' = nx_lb s ++ vl /\ nx_ub s' = nx_ub s ++ vu /\
      ng s' = ng s ++ g /\ ng_lb s' = ng_lb s ++ gl /\ ng_ub s' = ng_ub s ++ gu /\
      np s' = np s ++ p).
  { intros v lb ub Hv. apply include_variable_ok in Hv.
    destruct Hv as [a [b [_ [_ [_ [_ [_ ->]]]]]]].
    exists v, (spread a (length v)), (spread b (length v)), [], [], [], []. cbn [nx nx_lb nx_ub ng ng_lb ng_ub np].
    rewrite !app_nil_r. repeat split; reflexivity. }
  destruct o; cbn [nlp_step] in H.
  - eapply Hv, H.
  - eapply Hv, H.
  - injection H as <-. exists [], [], [], [], [], [], p. simpl. rewrite !app_nil_r. repeat split.
  - unfold set_objective in H. destruct (1 <? _)%nat; [discriminate|]. injection H as <-.
    exists [], [], [], [], [], [], []. simpl. rewrite !app_nil_r. repeat split.
  - apply include_inequality_ok in H. destruct H as [_ [_ [_ ->]]].
    exists [], [], [], e, (constraint_bound NInf lb (length e)), (constraint_bound PInf ub (length e)), []. cbn [nx nx_lb nx_ub ng ng_lb ng_ub np].
    rewrite !app_nil_r. repeat split; reflexivity.
  - apply include_equality_ok in H. destruct H as [_ ->].
    exists [], [], [], e, (rhs_vector rhs (length e)), (rhs_vector rhs (length e)), []. cbn [nx nx_lb nx_ub ng ng_lb ng_ub np].
    rewrite !app_nil_r. repeat split; reflexivity.
  - apply include_constraint_ok in H. destruct H as [e [l [u [_ [_ ->]]]]].
    exists [], [], [], e, l, u, []. simpl. rewrite !app_nil_r. repeat split.
  - unfold forget, solve in H. destruct (get_solver_call_args _ _ _ _ _ _); [|discriminate].
    unfold get_solver in H. exists [], [], [], [], [], [], [].
    destruct (nsolver s); injection H as <-; simpl; rewrite !app_nil_r; repeat split.
Qed.

(** A numeric variable request of the right size is accepted exactly when
    lower does not exceed upper. *)
Lemma bounds_loop_numeric : forall a b n,
    (0 < n)%nat ->
    bounds_loop (repeat (BNum a) n) (repeat (BNum b) n)
    = if ext_ltb b a then Raise ValueError else Ok tt.
Proof.
  intros a b n H. induction n as [|n IH]; [lia|]. simpl.
  destruct (ext_ltb b a); [reflexivity|]. destruct n; [reflexivity | apply IH; lia].
Qed.

Lemma spread_float : forall (x : bnd) n, (0 < n)%nat -> spread [x] n = repeat x n.
Proof.
  intros x n H. unfold spread. simpl. destruct n as [|[|n]]; [lia | reflexivity |].
  exact (repmat_single _ x (S (S n))).
Qed.

Lemma scalar_bounds : forall v a b s,
    (0 < length v)%nat ->
    (ext_le a b ->
       include_variable v (AFloat a) (AFloat b) s =
       (mkNlp (nx s ++ v) (nx_lb s ++ repeat (BNum a) (length v))
              (nx_ub s ++ repeat (BNum b) (length v))
              (ng s) (ng_lb s) (ng_ub s) (np s) (nf s) (nsolver s), Ok tt)) /\
    (~ ext_le a b ->
       include_variable v (AFloat a) (AFloat b) s = (s, Raise ValueError)).
Proof.
  intros v a b s H. unfold include_variable; simpl variable_bound; cbv iota beta zeta.
  rewrite !spread_float, !repeat_length, !Nat.eqb_refl by exact H.
  rewrite !bnds_constant_repeat. cbn [negb andb orb].
  rewrite bounds_loop_numeric by exact H. split; intros Hle.
  - destruct (ext_ltb b a) eqn:E; [|reflexivity]. apply ext_ltb_true in E. tauto.
  - destruct (ext_ltb b a) eqn:E; [reflexivity|]. apply ext_ltb_false in E. tauto.
Qed.

Lemma w_C09_int_bound_refuted :
  exists s, include_variable [1; 2]%nat (AInt 0) (AFloat PInf) s = (s, Raise AttributeError).
Proof. exists nlp_init. reflexivity. Qed.

Lemma w_C09_symbolic_bounds_unchecked_refuted :
  exists F is_equal_dm ops,
    let s := run_caught (nlp_step F is_equal_dm) ops nlp_init in
    ~ ordered (ng_lb s) (ng_ub s).
Proof.
  exists (fun _ q => q), (fun _ _ => false),
    [NCreateVariable [0%nat] (AFloat NInf) (AFloat PInf);
     NIncludeInequality 1 [EVar 0%nat; EVar 0%nat]
       (Some (AVec [BNum (Fin 3); BExp (EVar 7%nat)])) (Some (AFloat (Fin 1)))].
  intros s H. specialize (H 0%nat (Fin 3) (Fin 1) eq_refl eq_refl). simpl in H.
  discriminate (proj2 (Qle_bool_iff 3 1) H).
Qed.

Lemma w_C10_node_identity_refuted :
  exists F env ops,
    Forall (satisfies F env) (accepted (nlp_step F (fun _ _ => false)) ops nlp_init) /\
    ~ feasible F env (run_caught (nlp_step F (fun _ _ => false)) ops nlp_init).
Proof.
  exists (fun _ q => q), (fun _ => 0%Q),
    [NCreateVariable [0%nat] (AFloat NInf) (AFloat PInf);
     NIncludeConstraint (mkRel OpLe [EVar 0%nat] [EConst 1])].
  split.
  - repeat constructor.
    + intros b Hb. destruct i as [|[|i]]; simpl in *; injection Hb as <-; exact I.
    + intros b Hb. destruct i as [|[|i]]; simpl in *; injection Hb as <-; exact I.
    + intros i a b Hi Ha Hb. simpl in Hi. assert (i = 0%nat) by lia. subst i.
      injection Ha as <-. injection Hb as <-. simpl. apply Qle_bool_iff. reflexivity.
  - intros [_ H]. specialize (H 0%nat 0%Q (BNum (Fin 1)) (BNum PInf) eq_refl eq_refl eq_refl).
    destruct H as [H _]. simpl in H. discriminate (proj2 (Qle_bool_iff 1 0) H).
Qed.

Lemma w_C11_equality_recognised :
  forall r, is_equality r = true <-> r_op r = OpEq.
Proof. intros [op d0 d1]; unfold is_equality, is_inequality; destruct op; simpl; split; intros H; congruence. Qed.

Lemma w_C11_inequality_recognised :
  forall r, is_inequality r = true <-> r_op r = OpLe.
Proof. intros [op d0 d1]; unfold is_equality, is_inequality; destruct op; simpl; split; intros H; congruence. Qed.

Lemma w_C12_default_bounds :
  forall s,
    dget ckey_eqb Lbx (get_default_call_dict s) = Some (nx_lb s) /\
    dget ckey_eqb Ubx (get_default_call_dict s) = Some (nx_ub s) /\
    dget ckey_eqb Lbg (get_default_call_dict s) = Some (ng_lb s) /\
    dget ckey_eqb Ubg (get_default_call_dict s) = Some (ng_ub s).
Proof. intros s; repeat split. Qed.

Lemma w_C12_solve_follows_the_problem_refuted :
  exists F is_equal_dm ops s' f args,
    solve None None None None None
          (run_caught (nlp_step F is_equal_dm) ops nlp_init) = (s', Ok (f, args)) /\
    f <> current_solver s' /\
    exists lbg, dget ckey_eqb Lbg args = Some lbg /\ length lbg <> length (s_g f).
Proof.
  exists (fun _ q => q), (fun _ _ => false),
    [NCreateVariable [0%nat] (AFloat NInf) (AFloat PInf);
     NSolve None None None None None;
     NIncludeEquality 1 [EVar 0%nat] None].
  eexists _, _, _. split; [reflexivity|]. split; [discriminate|].
  eexists. split; [reflexivity | discriminate].
Qed.

(** ** Bounds that depend on variables or parameters *)

Lemma depends_entry : forall v e x l,
    In (BExp e) v -> In x (symbols e) -> In x l -> bnds_depend_on v l = true.
Proof.
  intros v e x l Hv Hx Hl. unfold bnds_depend_on. apply existsb_exists. exists (BExp e).
  split; [exact Hv|]. cbn [bnd_depends_on]. unfold depends_on. apply existsb_exists. exists x.
  split; [exact Hx|]. unfold memb. apply existsb_exists. exists x. split; [exact Hl | apply Nat.eqb_refl].
Qed.

Lemma spread_keeps : forall b (v : list bnd) n, In b v -> In b (spread v n).
Proof.
  intros b v n H. unfold spread. destruct (Nat.eqb (length v) 1 && (1 <? n)%nat) eqn:E; [|exact H].
  apply andb_true_iff in E. destruct E as [_ E]. apply Nat.ltb_lt in E. destruct n; [lia|].
  unfold repmat. simpl. apply in_or_app. left. exact H.
Qed.

Lemma depends_app : forall a b l,
    bnds_depend_on a l = true \/ bnds_depend_on b l = true -> bnds_depend_on (a ++ b) l = true.
Proof. intros a b l H. unfold bnds_depend_on in *. rewrite existsb_app. apply orb_true_iff. exact H. Qed.

Lemma inequality_bounds_refused : forall cols e lb ub s,
    bound_mentions lb (nx s ++ np s) \/ bound_mentions ub (nx s ++ np s) ->
    exists x, include_inequality cols e lb ub s = (s, Raise x).
Proof.
  intros cols e lb ub s H. unfold include_inequality.
  assert (D : bnds_depend_on (constraint_bound NInf lb (length e) ++ constraint_bound PInf ub (length e))
                             (nx s ++ np s) = true).
  { apply depends_app. destruct H as [H|H]; [left|right];
      destruct H as [v [g [x [-> [Hv [Hx Hl]]]]]]; cbn [constraint_bound];
      apply (depends_entry _ g x); try assumption; apply spread_keeps; exact Hv. }
  destruct (1 <? cols)%nat; [eexists; reflexivity|].
  destruct (negb _); [eexists; reflexivity|]. destruct (negb _); [eexists; reflexivity|].
  rewrite D. eexists; reflexivity.
Qed.

Lemma equality_bounds_refused : forall cols e rhs s,
    bound_mentions rhs (nx s ++ np s) -> exists x, include_equality cols e rhs s = (s, Raise x).
Proof.
  intros cols e rhs s [v [g [x [-> [Hv [Hx Hl]]]]]]. unfold include_equality.
  destruct (1 <? cols)%nat; [eexists; reflexivity|]. destruct (negb _); [eexists; reflexivity|].
  rewrite (depends_entry _ g x); [eexists; reflexivity | apply spread_keeps; exact Hv | exact Hx | exact Hl].
Qed.

Lemma variable_bounds_refused : forall v lb ub s,
    bound_mentions (Some lb) (np s) \/ bound_mentions (Some ub) (np s) ->
    exists x, include_variable v lb ub s = (s, Raise x).
Proof.
  assert (NC : forall (l : list bnd) e x, In (BExp e) l -> In x (symbols e) -> bnds_constant l = false).
  { intros l e x Hl Hx. unfold bnds_constant. apply Bool.not_true_is_false. intros C.
    rewrite forallb_forall in C. specialize (C _ Hl). cbn [bnd_constant] in C. unfold is_constant in C.
    destruct (symbols e); [contradiction | discriminate]. }
  intros v lb ub s H. unfold include_variable.
  destruct (variable_bound lb) as [lb0|] eqn:El; [|eexists; reflexivity].
  destruct (variable_bound ub) as [ub0|] eqn:Eu; [|eexists; reflexivity].
  destruct (_ || _) eqn:E1; [eexists; reflexivity|].
  assert (D : (negb (bnds_constant (spread lb0 (length v))) && bnds_depend_on (spread lb0 (length v)) (np s))
           || (negb (bnds_constant (spread ub0 (length v))) && bnds_depend_on (spread ub0 (length v)) (np s))
              = true).
  { apply orb_true_iff. destruct H as [H|H]; [left|right];
      destruct H as [w [g [x [W [Hv [Hx Hl]]]]]]; injection W as ->; cbn [variable_bound] in *;
      match goal with H : Ok _ = Ok _ |- _ => injection H as <- end;
      rewrite (NC _ g x), (depends_entry _ g x); try reflexivity; try assumption; apply spread_keeps; exact Hv. }
  rewrite D. eexists; reflexivity.
Qed.

(** Proofs about the penalties and the iterations of the augmented Lagrangian method. *)
From Coq Require Import String Sorted SetoidList Lqa Qabs Qminmax Qpower.
From Verif Require Import Base BaseProofs UtilModel UtilProofs ExprModel ExprProofs NlpModel SysModel
  SysSpec SysProofs OcpModel DiscModel DiscSpec DiscProofs
  ColSpec ColEvalProofs ColTopProofs PlantProofs AugModel AugSpec AugUpdateProofs AugProofs.
Local Open Scope list_scope.
Local Open Scope nat_scope.

(** ** What an update leaves alone *)

(** Computing new multipliers leaves the weights. *)
Lemma improvement_mu : forall new i err last s s' x, take_improvement new i err last s = (s', x) ->
    st_mu s' = st_mu s /\ st_alg s' = st_alg s /\ st_eq s' = st_eq s.
Proof.
  intros new i err last s s' x H. unfold take_improvement in H. destruct (Qle_bool last err).
  - injection H as <- _. auto.
  - unfold cbind, cmodify, cguard, change_nu_tilde in H. cbn [set_st_last st_nu_tilde st_shared] in H.
    destruct (st_nu_tilde s) as [d|] eqn:Ed; cbn iota beta in H; [|injection H as <- _; auto].
    cbn [set_st_last st_nu_tilde st_shared] in H. rewrite Ed in H.
    match type of H with context [if ?b then _ else _] => destruct b end; cbn iota beta in H.
    + injection H as <- _; auto.
    + cbn [set_st_last st_nu_tilde st_shared] in H. rewrite Ed in H. injection H as <- _. cbn. auto.
Qed.
Lemma crun_ind : forall (S O : Type) (f : O -> cmd S unit) (P : S -> Prop) l s s' x,
    (forall o s s' x, In o l -> P s -> f o s = (s', x) -> P s') -> P s -> crun f l s = (s', x) -> P s'.
Proof.
  intros S O f P l. unfold crun. induction l as [|o l IH]; intros s s' x Hf HP H; cbn [run_all] in H.
  - unfold cret in H. injection H as <- _. exact HP.
  - unfold cbind in H. destruct (f o s) as [s1 [[]|e]] eqn:E.
    + apply (IH s1 s' x); [|apply (Hf o s s1 (Ok tt)); [left; reflexivity | exact HP | exact E]|exact H].
      intros o' a b y Hin. apply Hf. right. exact Hin.
    + injection H as <- _. apply (Hf o s s1 (Raise e)); [left; reflexivity | exact HP | exact E].
Qed.
Lemma improvements_mu : forall new errors s s' x, take_improvements new errors s = (s', x) ->
    st_mu s' = st_mu s /\ st_alg s' = st_alg s /\ st_eq s' = st_eq s.
Proof.
  intros new errors s s' x H. unfold take_improvements in H. destruct (st_last s) as [last|]; [|injection H as <- _; auto].
  apply (crun_ind _ _ _ (fun z => st_mu z = st_mu s /\ st_alg z = st_alg s /\ st_eq z = st_eq s)) in H; [exact H| |auto].
  intros o a b y _ [H1 [H2 H3]] Ho. apply improvement_mu in Ho. destruct Ho as [G1 [G2 G3]]. repeat split; congruence.
Qed.
Lemma compute_mu : forall F opts f K p th raw s s' x,
    compute_new_nu_and_error F opts f K p th raw s = (s', x) -> st_mu s' = st_mu s.
Proof.
  intros F opts f K p th raw s s' x H. unfold compute_new_nu_and_error, cbind at 1, cres at 1 in H.
  destruct f as [f0|]; [|injection H as <- _; reflexivity].
  destruct (al_skip_compute opts); [injection H as <- _; reflexivity|].
  unfold cbind at 1, cres at 1 in H. destruct (lookup_all th K) as [ths|]; [|injection H as <- _; reflexivity].
  unfold cbind at 1, cres at 1 in H. destruct (call_update F f0 raw p (concat ths)) as [out|]; [|injection H as <- _; reflexivity].
  unfold cbind at 1, cmodify at 1 in H. unfold cbind in H.
  destruct (al_skip_nu opts); [injection H as <- _; reflexivity|].
  cbn [st_last set_st_violations] in H. destruct (st_last s); [|injection H as <- _; reflexivity].
  destruct (_ && _)%bool; [|injection H as <- _; reflexivity].
  destruct (take_improvements _ _ _) as [s1 [u|e]] eqn:E; apply improvements_mu in E; injection H as <- _; apply E.
Qed.
(** Without improvements, the violations of the last update are left alone as well. *)
Lemma compute_last : forall F opts f K p th raw s s' x, (al_improve opts = false \/ st_last s = None) ->
    compute_new_nu_and_error F opts f K p th raw s = (s', x) -> st_last s' = st_last s.
Proof.
  intros F opts f K p th raw s s' x Hi H. unfold compute_new_nu_and_error, cbind at 1, cres at 1 in H.
  destruct f as [f0|]; [|injection H as <- _; reflexivity].
  destruct (al_skip_compute opts); [injection H as <- _; reflexivity|].
  unfold cbind at 1, cres at 1 in H. destruct (lookup_all th K) as [ths|]; [|injection H as <- _; reflexivity].
  unfold cbind at 1, cres at 1 in H. destruct (call_update F f0 raw p (concat ths)) as [out|]; [|injection H as <- _; reflexivity].
  unfold cbind at 1, cmodify at 1 in H. unfold cbind in H.
  destruct (al_skip_nu opts); [injection H as <- _; reflexivity|].
  cbn [st_last set_st_violations] in H. destruct (st_last s) as [l|] eqn:El; [|injection H as <- _; cbn; congruence].
  destruct Hi as [Hi|Hi]; [|discriminate]. rewrite Hi in H. cbn [andb] in H. injection H as <- _. cbn. congruence.
Qed.

(** The steps of an update. *)
Lemma update_steps : forall F opts f K p th raw s s' errors,
    update_parameters F opts f K p th raw s = (s', Ok errors) ->
    exists theta_k s1 s2, join_thetas [th; Some (st_nu s)] = Ok theta_k /\
      compute_new_nu_and_error F opts f K (with_mu p (st_mu s)) theta_k raw s = (s1, Ok errors) /\
      update_mu opts errors (st_last s1) s1 = (s2, Ok tt) /\ s' = set_st_last (Some errors) s2.
Proof.
  intros F opts f K p th raw s s' errors H. unfold update_parameters in H.
  apply cbind_back in H. destruct H as [sa [theta_k [Ha H]]]. unfold cres in Ha. injection Ha as <- J.
  apply cbind_back in H. destruct H as [s1 [er [Hc H]]].
  apply cbind_back in H. destruct H as [s2 [[] [Hm H]]].
  apply cbind_back in H. destruct H as [s3 [[] [Hs H]]]. unfold cmodify in Hs. injection Hs as <-.
  unfold cret in H. injection H as <- <-. exists theta_k, s1, s2. auto.
Qed.
(** [update_mu] changes the weights only. *)
Lemma update_mu_only : forall opts errors last s s' x, update_mu opts errors last s = (s', x) ->
    s' = set_st_mu (st_mu s') s.
Proof.
  intros opts errors last s s' x H. assert (E : s = set_st_mu (st_mu s) s) by (destruct s; reflexivity).
  unfold update_mu in H.
  destruct (al_skip_mu opts); [injection H as <- _; exact E|].
  destruct (String.eqb _ "constant"); [injection H as <- _; exact E|].
  destruct (String.eqb _ "primal"); [destruct last; [unfold cmodify in H; injection H as <- _; reflexivity | injection H as <- _; exact E]|].
  destruct (String.eqb _ "primal-dual"); [injection H as <- _; exact E|].
  destruct (String.eqb _ "bounded-increase"); [unfold cmodify in H; injection H as <- _; reflexivity | injection H as <- _; exact E].
Qed.

(** ** One update of the multipliers *)

Section OneUpdate.
  Variables (F : nat -> Q -> Q) (points : nat -> list Q) (opts : al_options) (a : augmented) (own_p own_theta : list sym).
  Let k : method := ag_method a.
  Let pts : list Q := points (k_degree k).
  Hypothesis HF : respects F.
  Hypothesis T : transcribable k.
  Hypothesis Hpts : collocation_points pts (k_degree k).
  Hypothesis C : carries F pts a own_p own_theta.
  Variables (s : aug_state) (p : option (list Q)) (th : option (theta Q)) (r : traj Q) (q : trajectory).
  Hypothesis Fi : fitting a own_p own_theta s p th.
  Hypothesis Sr : collocation_shape k r.
  Hypothesis R : reads k pts r (given_p p ++ st_mu s) (fun el => given_in th el ++ nu_in s el) q.
  Hypothesis Hskip : al_skip_compute opts = false.
  Variables (s' : aug_state) (errors : list Q).
  Hypothesis Hup : update_parameters F opts (create_nu_update_func points a) (k_elements k) p th (flatten r) s = (s', Ok errors).

  Lemma updated_errors : largest F pts a q errors /\ st_last s' = Some errors.
  Proof.
    destruct (update_steps _ _ _ _ _ _ _ _ _ _ Hup) as [theta_k [s1 [s2 [J [Hc [_ ->]]]]]].
    destruct (computed F points opts a own_p own_theta HF T Hpts C s p th r q Fi Sr R theta_k s1 errors J Hskip Hc) as [new [al [eq [_ [L _]]]]].
    split; [exact L | reflexivity].
  Qed.
  Lemma updated_multipliers : al_skip_nu opts = false -> (al_improve opts = false \/ st_last s = None) ->
      exists d, st_nu_tilde s' = Some d /\ moved F pts a q s d /\ st_nu s' = st_nu s.
  Proof.
    intros Hnu Himp. destruct (update_steps _ _ _ _ _ _ _ _ _ _ Hup) as [theta_k [s1 [s2 [J [Hc [Hm ->]]]]]].
    destruct (computed F points opts a own_p own_theta HF T Hpts C s p th r q Fi Sr R theta_k s1 errors J Hskip Hc) as [new [al [eq [M [L S1]]]]].
    rewrite Hnu in S1. exists new.
    assert (E1 : s1 = set_nu_tilde new (set_st_violations al eq s)).
    { destruct (st_last s); [|exact S1]. destruct Himp as [Hi|Hi]; [|discriminate]. rewrite Hi in S1. exact S1. }
    rewrite (update_mu_only _ _ _ _ _ _ Hm), E1. split; [reflexivity|]. split; [exact M | reflexivity].
  Qed.
  Lemma skipped_multipliers : al_skip_nu opts = true -> st_nu_tilde s' = st_nu_tilde s /\ st_nu s' = st_nu s.
  Proof.
    intros Hnu. destruct (update_steps _ _ _ _ _ _ _ _ _ _ Hup) as [theta_k [s1 [s2 [J [Hc [Hm ->]]]]]].
    destruct (computed F points opts a own_p own_theta HF T Hpts C s p th r q Fi Sr R theta_k s1 errors J Hskip Hc) as [new [al [eq [M [L S1]]]]].
    rewrite Hnu in S1. rewrite (update_mu_only _ _ _ _ _ _ Hm), S1. split; reflexivity.
  Qed.
End OneUpdate.

(** ** Taking only improvements *)

Lemma put_at_get : forall d new i el, dget Nat.eqb el (put_at d new i) =
    match dget Nat.eqb el d with
    | Some v => Some (match dget Nat.eqb el new with Some w => set_nth v i (nth i w 0%Q) | None => v end)
    | None => None
    end.
Proof.
  intros d new i el. unfold put_at. induction d as [|[x v] d IH]; [reflexivity|]. cbn [map dget fst snd].
  destruct (Nat.eqb_spec el x) as [->|]; [reflexivity | exact IH].
Qed.
Lemma set_nth_other : forall (A : Type) (l : list A) i x m, m <> i -> nth_error (set_nth l i x) m = nth_error l m.
Proof.
  intros A l. induction l as [|y l IH]; intros [|i] x [|m] H; cbn [set_nth nth_error]; try reflexivity; try lia.
  apply IH. lia.
Qed.
Lemma set_nth_length : forall (A : Type) (l : list A) i x, length (set_nth l i x) = length l.
Proof. intros A l. induction l as [|y l IH]; intros [|i] x; cbn [set_nth length]; [reflexivity..|]. rewrite IH. reflexivity. Qed.
Lemma set_nth_same : forall (A : Type) (l : list A) i x, i < length l -> nth_error (set_nth l i x) i = Some x.
Proof.
  intros A l. induction l as [|y l IH]; intros [|i] x H; cbn [set_nth nth_error length] in *; try lia; [reflexivity|].
  apply IH. lia.
Qed.

(** One component: what becomes of the multipliers and of the stored violations. *)
Lemma improvement_is : forall new i err last s s', take_improvement new i err last s = (s', Ok tt) ->
    (Qle_bool last err = true /\ s' = s) \/
    (Qle_bool last err = false /\ exists d, st_nu_tilde s = Some d /\ st_nu_tilde s' = Some (put_at d new i) /\
       st_nu s' = (if st_shared s then put_at d new i else st_nu s) /\ st_shared s' = st_shared s /\
       st_last s' = (match st_last s with Some l => Some (set_nth l i err) | None => None end)).
Proof.
  intros new i err last s s' H. unfold take_improvement in H. destruct (Qle_bool last err) eqn:Eq.
  - injection H as <-. left. auto.
  - right. split; [reflexivity|]. unfold cbind, cmodify, cguard, change_nu_tilde in H. cbn [set_st_last st_nu_tilde st_shared] in H.
    destruct (st_nu_tilde s) as [d|] eqn:Ed; cbn iota beta in H; [|discriminate].
    cbn [set_st_last st_nu_tilde st_shared] in H. rewrite Ed in H.
    match type of H with context [if ?b then _ else _] => destruct b end; cbn iota beta in H; [discriminate|].
    cbn [set_st_last st_nu_tilde st_shared] in H. rewrite Ed in H. injection H as <-. exists d. cbn. auto 6.
Qed.

(** Entries after those of the first collocation point. *)
Definition entry_of (d : option (theta Q)) (el m : nat) : option Q :=
  match d with
  | Some d0 => match dget Nat.eqb el d0 with Some v => nth_error v m | None => None end
  | None => None
  end.
Lemma entry_put : forall d new i el m, m <> i -> entry_of (Some (put_at d new i)) el m = entry_of (Some d) el m.
Proof.
  intros d new i el m H. unfold entry_of. rewrite put_at_get. destruct (dget Nat.eqb el d) as [v|]; [|reflexivity].
  destruct (dget Nat.eqb el new); [apply set_nth_other, H | reflexivity].
Qed.
Lemma crun_ind_ok : forall (S O : Type) (f : O -> cmd S unit) (P : S -> Prop) l s s',
    (forall o s s', In o l -> P s -> f o s = (s', Ok tt) -> P s') -> P s -> crun f l s = (s', Ok tt) -> P s'.
Proof.
  intros S O f P l. unfold crun. induction l as [|o l IH]; intros s s' Hf HP H; cbn [run_all] in H.
  - unfold cret in H. injection H as <-. exact HP.
  - unfold cbind in H. destruct (f o s) as [s1 [[]|e]] eqn:E; [|discriminate].
    apply (IH s1 s'); [|apply (Hf o s s1); [left; reflexivity | exact HP | exact E]|exact H].
    intros o' a b Hin. apply Hf. right. exact Hin.
Qed.
Lemma improvements_keep : forall new errors s s' el m, length errors <= m ->
    take_improvements new errors s = (s', Ok tt) -> entry_of (st_nu_tilde s') el m = entry_of (st_nu_tilde s) el m.
Proof.
  intros new errors s s' el m Hm H. unfold take_improvements in H. destruct (st_last s) as [last|]; [|injection H as <-; reflexivity].
  apply (crun_ind_ok _ _ _ (fun z => entry_of (st_nu_tilde z) el m = entry_of (st_nu_tilde s) el m)) in H; [exact H| |reflexivity].
  intros [i [err l]] z z' Hin HP Ho. cbn [fst snd] in Ho.
  assert (Hi : i < length errors).
  { apply in_combine_l in Hin. apply in_seq in Hin. lia. }
  apply improvement_is in Ho. destruct Ho as [[_ ->]|[_ [d [E1 [E2 _]]]]]; [exact HP|].
  rewrite E2, entry_put by lia. rewrite <- E1. exact HP.
Qed.

(** ** Weights *)

Lemma fmin_min : forall a b, (fmin a b == Qmin a b)%Q.
Proof.
  intros a b. unfold fmin. destruct (Qle_bool a b) eqn:E.
  - apply Qle_bool_iff in E. rewrite Q.min_l by exact E. reflexivity.
  - rewrite Q.min_r; [reflexivity|]. apply Qlt_le_weak, Qnot_le_lt. intros H. apply Qle_bool_iff in H. congruence.
Qed.

Section Weights.
  Variables (F : nat -> Q -> Q) (opts : al_options) (f : res update_function) (K : nat).
  Variables (p : option (list Q)) (th : option (theta Q)) (raw : list Q) (s s' : aug_state) (errors : list Q).
  Hypothesis Hup : update_parameters F opts f K p th raw s = (s', Ok errors).

  Lemma kept_weights : al_skip_mu opts = true \/ al_rule opts = "constant"%string \/ al_rule opts = "primal-dual"%string ->
      st_mu s' = st_mu s.
  Proof.
    intros Hr. destruct (update_steps _ _ _ _ _ _ _ _ _ _ Hup) as [theta_k [s1 [s2 [_ [Hc [Hm ->]]]]]].
    apply compute_mu in Hc. cbn [set_st_last st_mu]. rewrite <- Hc. unfold update_mu in Hm.
    destruct (al_skip_mu opts); [injection Hm as <-; reflexivity|]. destruct Hr as [Hr|[Hr|Hr]]; [discriminate| |];
      rewrite Hr in Hm; cbn in Hm; injection Hm as <-; reflexivity.
  Qed.
  Lemma increased_weights : al_skip_mu opts = false -> al_rule opts = "bounded-increase"%string ->
      st_mu s' = map (fun m => fmin (al_mu_max opts) (m * al_beta opts)%Q) (st_mu s).
  Proof.
    intros Hs Hr. destruct (update_steps _ _ _ _ _ _ _ _ _ _ Hup) as [theta_k [s1 [s2 [_ [Hc [Hm ->]]]]]].
    apply compute_mu in Hc. cbn [set_st_last st_mu]. rewrite <- Hc. unfold update_mu in Hm. rewrite Hs, Hr in Hm.
    cbn in Hm. unfold cmodify in Hm. injection Hm as <-. reflexivity.
  Qed.
  Lemma primal_weights : al_skip_mu opts = false -> al_rule opts = "primal"%string -> (al_improve opts = false \/ st_last s = None) ->
      st_mu s' = match st_last s with Some l => update_mu_primal opts (st_mu s) errors l | None => st_mu s end.
  Proof.
    intros Hs Hr Hi. destruct (update_steps _ _ _ _ _ _ _ _ _ _ Hup) as [theta_k [s1 [s2 [_ [Hc [Hm ->]]]]]].
    assert (El := compute_last _ _ _ _ _ _ _ _ _ _ Hi Hc).
    apply compute_mu in Hc. cbn [set_st_last st_mu]. rewrite <- Hc, <- El. unfold update_mu in Hm. rewrite Hs, Hr in Hm.
    cbn in Hm. destruct (st_last s1); [unfold cmodify in Hm; injection Hm as <-; reflexivity | injection Hm as <-; reflexivity].
  Qed.
  Lemma known_rule : al_skip_mu opts = true \/ In (al_rule opts) ["constant"; "primal"; "primal-dual"; "bounded-increase"]%string.
  Proof.
    destruct (update_steps _ _ _ _ _ _ _ _ _ _ Hup) as [theta_k [s1 [s2 [_ [_ [Hm _]]]]]]. unfold update_mu in Hm.
    destruct (al_skip_mu opts); [left; reflexivity | right].
    destruct (String.eqb_spec (al_rule opts) "constant"); [left; auto|].
    destruct (String.eqb_spec (al_rule opts) "primal"); [right; left; auto|].
    destruct (String.eqb_spec (al_rule opts) "primal-dual"); [right; right; left; auto|].
    destruct (String.eqb_spec (al_rule opts) "bounded-increase"); [right; right; right; left; auto | discriminate].
  Qed.
End Weights.

Lemma primal_nth : forall opts mu error last i m, nth_error mu i = Some m ->
    nth_error (update_mu_primal opts mu error last) i =
    Some (match nth_error error i, nth_error last i with
          | Some e, Some l => primal_mu opts m e l
          | _, _ => m end).
Proof.
  intros opts mu. induction mu as [|m0 mu IH]; intros error last i m H; [destruct i; discriminate|].
  destruct error as [|e error].
  - cbn [update_mu_primal]. rewrite H. destruct i; reflexivity.
  - destruct last as [|l last]; [cbn [update_mu_primal]; rewrite H; destruct i; cbn [nth_error]; [|destruct (nth_error error i)]; reflexivity|].
    cbn [update_mu_primal]. destruct i as [|i]; cbn [nth_error] in *; [injection H as ->; reflexivity|]. apply IH, H.
Qed.
Lemma primal_length : forall opts mu error last, length (update_mu_primal opts mu error last) = length mu.
Proof.
  intros opts mu. induction mu as [|m mu IH]; intros [|e error] [|l last]; cbn [update_mu_primal length]; try reflexivity.
  rewrite IH. reflexivity.
Qed.

(** Without any rule being broken: a weight within its limit grows, within the limit. *)
Lemma fmin_grows : forall hi b m, (0 <= m)%Q -> (m <= hi)%Q -> (1 <= b)%Q -> grows hi m (fmin hi (m * b)).
Proof.
  intros hi b m H0 H1 Hb. unfold fmin. destruct (Qle_bool hi (m * b)) eqn:E.
  - split; [exact H1 | apply Qle_refl].
  - split; [nra|]. apply Qlt_le_weak, Qnot_le_lt. intros H. apply Qle_bool_iff in H. congruence.
Qed.
Lemma primal_grows : forall opts m e l, (0 <= m)%Q -> (m <= al_mu_max opts)%Q -> (1 <= al_beta opts)%Q ->
    grows (al_mu_max opts) m (primal_mu opts m e l).
Proof.
  intros opts m e l H0 H1 Hb. unfold primal_mu. destruct (Qle_bool e _); [split; [apply Qle_refl | exact H1]|].
  exact (fmin_grows (al_mu_max opts) (al_beta opts) m H0 H1 Hb).
Qed.
Lemma mu_growth : forall opts errors last s s' x, update_mu opts errors last s = (s', x) ->
    (1 <= al_beta opts)%Q -> Forall (fun m => 0 <= m /\ m <= al_mu_max opts)%Q (st_mu s) ->
    Forall2 (grows (al_mu_max opts)) (st_mu s) (st_mu s').
Proof.
  intros opts errors last s s' x H Hb Hm.
  assert (Same : Forall2 (grows (al_mu_max opts)) (st_mu s) (st_mu s)).
  { clear H. induction Hm as [|m l [H0 H1] Hm IH]; constructor; [split; [apply Qle_refl | exact H1] | exact IH]. }
  unfold update_mu in H.
  destruct (al_skip_mu opts); [injection H as <- _; exact Same|].
  destruct (String.eqb _ "constant"); [injection H as <- _; exact Same|].
  destruct (String.eqb _ "primal").
  - destruct last as [l|]; [|injection H as <- _; exact Same]. unfold cmodify in H. injection H as <- _. cbn [set_st_mu st_mu].
    clear -Hm Hb Same. revert errors l. induction Hm as [|m mu [H0 H1] Hm IH]; intros [|e errors] [|l0 l]; cbn [update_mu_primal]; try exact Same.
    constructor; [apply primal_grows; assumption|]. apply IH. inversion Same; assumption.
  - destruct (String.eqb _ "primal-dual"); [injection H as <- _; exact Same|].
    destruct (String.eqb _ "bounded-increase"); [|injection H as <- _; exact Same].
    unfold cmodify in H. injection H as <- _. cbn [set_st_mu st_mu].
    clear -Hm Hb. induction Hm as [|m l [H0 H1] Hm IH]; constructor; [apply fmin_grows; assumption | exact IH].
Qed.
Lemma update_growth : forall F opts f K p th raw s s' x, update_parameters F opts f K p th raw s = (s', x) ->
    (1 <= al_beta opts)%Q -> Forall (fun m => 0 <= m /\ m <= al_mu_max opts)%Q (st_mu s) ->
    Forall2 (grows (al_mu_max opts)) (st_mu s) (st_mu s').
Proof.
  intros F opts f K p th raw s s' x H Hb Hm.
  assert (Same : Forall2 (grows (al_mu_max opts)) (st_mu s) (st_mu s)).
  { clear H. induction Hm as [|m l [H0 H1] Hm IH]; constructor; [split; [apply Qle_refl | exact H1] | exact IH]. }
  unfold update_parameters, cbind at 1, cres at 1 in H. destruct (join_thetas _) as [theta_k|]; [|injection H as <- _; exact Same].
  unfold cbind at 1 in H. destruct (compute_new_nu_and_error _ _ _ _ _ _ _ s) as [s1 [er|e]] eqn:Ec;
    apply compute_mu in Ec; [|injection H as <- _; rewrite Ec; exact Same].
  unfold cbind at 1 in H. destruct (update_mu opts er (st_last s1) s1) as [s2 [u|e]] eqn:Em;
    apply mu_growth in Em; try assumption; try (rewrite Ec; assumption); rewrite Ec in Em; injection H as <- _; exact Em.
Qed.

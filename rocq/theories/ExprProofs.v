(** Proofs about expressions, substitution and the time conversions. *)
From Verif Require Import Base BaseProofs ExprModel.
From Coq Require Import Qfield Qminmax.

(** Unary operations that do not distinguish equal rationals. *)
Definition respects (F : nat -> Q -> Q) : Prop :=
  forall f x y, (x == y)%Q -> (F f x == F f y)%Q.

Lemma eval_substitute : forall F env e v vdef,
    eval F env (substitute e v vdef) = eval F (env_subst F env v vdef) e.
Proof.
  intros F env e v vdef; induction e as [q|s|o a IHa b IHb|f a IHa]; simpl;
    rewrite ?IHa, ?IHb; reflexivity.
Qed.

Lemma eval_ext : forall F env1 env2 e,
    (forall s, In s (symbols e) -> env1 s = env2 s) ->
    eval F env1 e = eval F env2 e.
Proof.
  intros F env1 env2 e; induction e as [q|s|o a IHa b IHb|f a IHa]; simpl; intros H.
  - reflexivity.
  - apply H; left; reflexivity.
  - rewrite IHa, IHb; [reflexivity| |]; intros s Hs; apply H; apply in_or_app; tauto.
  - rewrite IHa; [reflexivity | exact H].
Qed.

Lemma eval_ext_Qeq : forall F env1 env2 e,
    respects F ->
    (forall s, In s (symbols e) -> env1 s == env2 s)%Q ->
    (eval F env1 e == eval F env2 e)%Q.
Proof.
  intros F env1 env2 e HF; induction e as [q|s|o a IHa b IHb|f a IHa]; simpl; intros H.
  - reflexivity.
  - apply H; left; reflexivity.
  - assert (Ha : (eval F env1 a == eval F env2 a)%Q)
      by (apply IHa; intros s Hs; apply H; apply in_or_app; tauto).
    assert (Hb : (eval F env1 b == eval F env2 b)%Q)
      by (apply IHb; intros s Hs; apply H; apply in_or_app; tauto).
    destruct o; simpl; rewrite Ha, Hb; reflexivity.
  - apply HF, IHa, H.
Qed.

Lemma subst_lookup_notin : forall s v vdef,
    ~ In s v -> subst_lookup s v vdef = EVar s.
Proof.
  intros s v; induction v as [|s' v IH]; intros vdef H; simpl; [reflexivity|].
  destruct vdef as [|d vdef]; [reflexivity|].
  destruct (Nat.eqb_spec s s') as [->|Hne].
  - exfalso; apply H; left; reflexivity.
  - apply IH. intros Hin; apply H; right; exact Hin.
Qed.

Lemma env_subst_notin : forall F env v vdef s,
    ~ In s v -> env_subst F env v vdef s = env s.
Proof. intros. unfold env_subst. rewrite subst_lookup_notin by assumption. reflexivity. Qed.

Lemma env_subst_nth : forall F env v vdef i s d,
    NoDup v -> nth_error v i = Some s -> nth_error vdef i = Some d ->
    env_subst F env v vdef s = eval F env d.
Proof.
  intros F env v; unfold env_subst; induction v as [|s' v IH]; intros vdef i s d Hnd Hs Hd.
  - destruct i; discriminate.
  - inversion Hnd as [|? ? Hni Hnd']; subst.
    destruct vdef as [|d' vdef]; [destruct i; discriminate|].
    destruct i as [|i]; simpl in *.
    + injection Hs as <-. injection Hd as <-. rewrite Nat.eqb_refl. reflexivity.
    + destruct (Nat.eqb_spec s s') as [->|Hne].
      * exfalso. apply Hni. eapply nth_error_In, Hs.
      * eapply IH; eassumption.
Qed.

Lemma substitute_fresh : forall e v vdef,
    (forall s, In s (symbols e) -> ~ In s v) -> substitute e v vdef = e.
Proof.
  intros e v vdef; induction e as [q|s|o a IHa b IHb|f a IHa]; simpl; intros H.
  - reflexivity.
  - apply subst_lookup_notin, H. left; reflexivity.
  - rewrite IHa, IHb; [reflexivity| |]; intros s Hs; apply H; apply in_or_app; tauto.
  - rewrite IHa; [reflexivity | exact H].
Qed.

Lemma subst_lookup_symbols : forall s v vdef x,
    In x (symbols (subst_lookup s v vdef)) ->
    (x = s /\ (~ In s v \/ (length vdef <= length v)%nat)) \/
    (exists d, In d vdef /\ In x (symbols d)).
Proof.
  intros s v; induction v as [|s' v IH]; intros vdef x H; simpl in *.
  - left. destruct H as [H|[]]. split; [symmetry; exact H | left; intros []].
  - destruct vdef as [|d vdef]; simpl in H.
    + left. destruct H as [H|[]]. split; [symmetry; exact H | right; simpl; lia].
    + destruct (Nat.eqb_spec s s') as [->|Hne].
      * right. exists d. split; [left; reflexivity | exact H].
      * destruct (IH vdef x H) as [[-> Hc]|[d' [H1 H2]]].
        -- left. split; [reflexivity|]. destruct Hc as [Hc|Hc].
           ++ left. intros [Hx|Hx]; [congruence | contradiction].
           ++ right. simpl; lia.
        -- right. exists d'. split; [right; exact H1 | exact H2].
Qed.

(** A substituted symbol is gone when every symbol has a replacement and the
    replacements do not mention it. *)
Lemma substitute_eliminates : forall e v vdef s,
    length v = length vdef -> In s v ->
    (forall d, In d vdef -> ~ In s (symbols d)) ->
    ~ In s (symbols (substitute e v vdef)).
Proof.
  intros e v vdef s Hlen Hs Hd; induction e as [q|s'|o a IHa b IHb|f a IHa]; simpl.
  - intros [].
  - intros H.
    assert (Hcase : forall w wdef, length w = length wdef ->
       (forall d, In d wdef -> ~ In s (symbols d)) ->
       In s (symbols (subst_lookup s' w wdef)) -> s' = s /\ ~ In s w).
    { induction w as [|x w IHw]; intros wdef Hl Hdd Hin; simpl in Hin.
      - destruct Hin as [Hin|[]]. split; [exact Hin | intros []].
      - destruct wdef as [|d wdef]; [discriminate|].
        destruct (Nat.eqb_spec s' x) as [->|Hne].
        + exfalso. apply (Hdd d (or_introl eq_refl) Hin).
        + destruct (IHw wdef) as [-> Hni]; [simpl in Hl; lia | | exact Hin |].
          * intros d' Hd'; apply Hdd; right; exact Hd'.
          * split; [reflexivity|]. intros [Hx|Hx]; [congruence | contradiction]. }
    destruct (Hcase v vdef Hlen Hd H) as [_ Hni]. contradiction.
  - intros H. apply in_app_or in H. tauto.
  - exact IHa.
Qed.

Lemma symbols_substitute_In : forall e v vdef x,
    In x (symbols (substitute e v vdef)) ->
    In x (symbols e) \/ (exists d, In d vdef /\ In x (symbols d)).
Proof.
  intros e v vdef x; induction e as [q|s|o a IHa b IHb|f a IHa]; simpl.
  - intros [].
  - intros H. apply subst_lookup_symbols in H. destruct H as [[-> _]|H].
    + left; left; reflexivity.
    + right; exact H.
  - intros H. apply in_app_or in H. destruct H as [H|H].
    + destruct (IHa H) as [H'|H']; [left; apply in_or_app; tauto | right; exact H'].
    + destruct (IHb H) as [H'|H']; [left; apply in_or_app; tauto | right; exact H'].
  - exact IHa.
Qed.

Lemma depends_on_spec : forall e vars,
    depends_on e vars = true <-> exists s, In s (symbols e) /\ In s vars.
Proof.
  intros e vars. unfold depends_on. rewrite existsb_exists. split.
  - intros [s [H1 H2]]. exists s. split; [exact H1 | apply memb_nat, H2].
  - intros [s [H1 H2]]. exists s. split; [exact H1 | apply memb_nat, H2].
Qed.

Lemma is_constant_eval : forall F env1 env2 e,
    is_constant e = true -> eval F env1 e = eval F env2 e.
Proof.
  intros F env1 env2 e H. apply eval_ext. unfold is_constant in H.
  destruct (symbols e); [intros s [] | discriminate].
Qed.

(** Time conversions. *)
Lemma tau_to_time_value : forall F env e t tau t_k t_kp1,
    eval F env (convert_expr_from_tau_to_time e t tau t_k t_kp1) =
    eval F (upd env tau ((env t - t_k) / (t_kp1 - t_k))%Q) e.
Proof.
  intros. unfold convert_expr_from_tau_to_time. rewrite eval_substitute.
  apply eval_ext. intros s _. unfold env_subst, upd. simpl.
  destruct (Nat.eqb s tau); reflexivity.
Qed.

Lemma time_to_tau_value : forall F env e t tau t_k t_kp1,
    eval F env (convert_expr_from_time_to_tau e t tau t_k t_kp1) =
    eval F (upd env t (env tau * (t_kp1 - t_k) + t_k)%Q) e.
Proof.
  intros. unfold convert_expr_from_time_to_tau. rewrite eval_substitute.
  apply eval_ext. intros s _. unfold env_subst, upd. simpl.
  destruct (Nat.eqb s t); reflexivity.
Qed.

Lemma h_nonzero : forall a b : Q, ~ (a == b)%Q -> ~ (b - a == 0)%Q.
Proof. intros a b H E. apply H. rewrite <- (Qplus_0_l a), <- E. ring. Qed.

Lemma conversions_agree : forall F env e t tau t_k t_kp1,
    respects F -> ~ (t_k == t_kp1)%Q -> t <> tau ->
    (env t == t_k + env tau * (t_kp1 - t_k))%Q ->
    (eval F env (convert_expr_from_tau_to_time e t tau t_k t_kp1) == eval F env e)%Q /\
    (eval F env (convert_expr_from_time_to_tau e t tau t_k t_kp1) == eval F env e)%Q.
Proof.
  intros F env e t tau t_k t_kp1 HF Hh Hne Hcons.
  pose proof (h_nonzero _ _ Hh) as Hd. split.
  - rewrite tau_to_time_value. apply eval_ext_Qeq; [exact HF|].
    intros s _. unfold upd. destruct (Nat.eqb_spec s tau) as [->|_]; [|reflexivity].
    rewrite Hcons. field. exact Hd.
  - rewrite time_to_tau_value. apply eval_ext_Qeq; [exact HF|].
    intros s _. unfold upd. destruct (Nat.eqb_spec s t) as [->|_]; [|reflexivity].
    rewrite Hcons. ring.
Qed.

Lemma tau_time_tau : forall F env e t tau t_k t_kp1,
    respects F -> ~ (t_k == t_kp1)%Q -> t <> tau -> ~ In t (symbols e) ->
    (eval F env (convert_expr_from_time_to_tau
                   (convert_expr_from_tau_to_time e t tau t_k t_kp1) t tau t_k t_kp1)
     == eval F env e)%Q.
Proof.
  intros F env e t tau t_k t_kp1 HF Hh Hne Ht.
  pose proof (h_nonzero _ _ Hh) as Hd.
  rewrite time_to_tau_value, tau_to_time_value. apply eval_ext_Qeq; [exact HF|].
  intros s Hs. unfold upd. rewrite Nat.eqb_refl.
  destruct (Nat.eqb_spec s tau) as [->|H1].
  - field. exact Hd.
  - destruct (Nat.eqb_spec s t) as [->|H2]; [contradiction | reflexivity].
Qed.

Lemma time_tau_time : forall F env e t tau t_k t_kp1,
    respects F -> ~ (t_k == t_kp1)%Q -> t <> tau -> ~ In tau (symbols e) ->
    (eval F env (convert_expr_from_tau_to_time
                   (convert_expr_from_time_to_tau e t tau t_k t_kp1) t tau t_k t_kp1)
     == eval F env e)%Q.
Proof.
  intros F env e t tau t_k t_kp1 HF Hh Hne Ht.
  pose proof (h_nonzero _ _ Hh) as Hd.
  rewrite tau_to_time_value, time_to_tau_value. apply eval_ext_Qeq; [exact HF|].
  intros s Hs. unfold upd. rewrite Nat.eqb_refl.
  destruct (Nat.eqb_spec s t) as [->|H1].
  - field. exact Hd.
  - destruct (Nat.eqb_spec s tau) as [->|H2]; [contradiction | reflexivity].
Qed.

Lemma tau_to_time_no_tau : forall e t tau t_k t_kp1,
    t <> tau -> ~ In tau (symbols (convert_expr_from_tau_to_time e t tau t_k t_kp1)).
Proof.
  intros e t tau t_k t_kp1 Hne. apply substitute_eliminates; [reflexivity | left; reflexivity|].
  intros d [<-|[]] H. simpl in H. destruct H as [H|[]]. congruence.
Qed.

Lemma time_to_tau_no_t : forall e t tau t_k t_kp1,
    t <> tau -> ~ In t (symbols (convert_expr_from_time_to_tau e t tau t_k t_kp1)).
Proof.
  intros e t tau t_k t_kp1 Hne. apply substitute_eliminates; [reflexivity | left; reflexivity|].
  intros d [<-|[]] H. simpl in H. destruct H as [H|[]]. congruence.
Qed.

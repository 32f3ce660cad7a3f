(** Proofs about the optimal control of quadratic Hamiltonians. *)
From Coq Require Import String Qabs Qminmax Lqa Setoid.
From Verif Require Import Base BaseProofs ExprModel ExprProofs NlpModel SysModel SysSpec
  SysProofs OcpModel OcpMoreProofs DiscModel StoSpec StoBasisProofs IndModel IndSpec IndCalcProofs IndProofs.
Local Open Scope list_scope.

(** ** Sums *)

Lemma sum_add : forall n f g, (qsum_to n (fun k => f k + g k) == qsum_to n f + qsum_to n g)%Q.
Proof.
  induction n as [|n IH]; intros f g; [reflexivity|]. rewrite !qsum_shift.
  rewrite (IH (fun k => f (S k)) (fun k => g (S k))). ring.
Qed.
Lemma sum_scale : forall n c f, (qsum_to n (fun k => c * f k) == c * qsum_to n f)%Q.
Proof.
  induction n as [|n IH]; intros c f; [unfold qsum_to; simpl; ring|]. rewrite !qsum_shift.
  rewrite (IH c (fun k => f (S k))). ring.
Qed.
Lemma sum_nonneg : forall n f, (forall k, (k < n)%nat -> (0 <= f k)%Q) -> (0 <= qsum_to n f)%Q.
Proof.
  induction n as [|n IH]; intros f H; [unfold qsum_to; simpl; lra|]. rewrite qsum_shift.
  pose proof (H 0%nat ltac:(lia)). pose proof (IH (fun k => f (S k)) (fun k Hk => H (S k) ltac:(lia))). lra.
Qed.
Lemma sum_le : forall n f g, (forall k, (k < n)%nat -> (f k <= g k)%Q) -> (qsum_to n f <= qsum_to n g)%Q.
Proof.
  intros n f g H. assert (P : (0 <= qsum_to n (fun k => g k + (-1) * f k))%Q).
  { apply sum_nonneg. intros k Hk. specialize (H k Hk). lra. }
  rewrite sum_add, (sum_scale n (-1) f) in P. lra.
Qed.
Lemma sum_swap : forall n m (f : nat -> nat -> Q),
    (qsum_to n (fun i => qsum_to m (f i)) == qsum_to m (fun j => qsum_to n (fun i => f i j)))%Q.
Proof.
  induction n as [|n IH]; intros m f.
  - change (qsum_to 0 (fun i => qsum_to m (f i))) with 0%Q. induction m as [|m IHm]; [reflexivity|].
    rewrite qsum_shift. change (qsum_to 0 (fun i => f i 0%nat)) with 0%Q.
    rewrite (qsum_ext m _ (fun j => qsum_to 0 (fun i => f i j))); [|intros; reflexivity]. rewrite <- IHm. ring.
  - rewrite qsum_shift, (IH m (fun i => f (S i))), <- sum_add. apply qsum_ext. intros k _. rewrite qsum_shift. reflexivity.
Qed.
(** A single different term. *)
Definition bump (v : nat -> Q) (i : nat) (h : Q) : nat -> Q := fun k => (v k + (if k =? i then 1 else 0) * h)%Q.
Lemma sum_bump : forall n b v i h, i < n ->
    (qsum_to n (fun k => b k * bump v i h k) == qsum_to n (fun k => b k * v k) + b i * h)%Q.
Proof.
  intros n b v i h Hi. rewrite (qsum_ext n _ (fun k => b k * v k + (if k =? i then 1 else 0) * (b k * h))%Q).
  2:{ intros; unfold bump; ring. }
  rewrite sum_add, (qsum_single n i (fun k => b k * h)%Q Hi). reflexivity.
Qed.

(** ** The quadratic function *)

Definition slope (n : nat) (b : nat -> Q) (A : nat -> nat -> Q) (v : nat -> Q) (i : nat) : Q :=
  (b i + qsum_to n (fun j => A i j * v j))%Q.

(** Exact expansion around [v], for any direction [d]. *)
Lemma quadratic_expand : forall n c b A v d, symmetric n A ->
    (quadratic n c b A (fun k => v k + d k) ==
     quadratic n c b A v + qsum_to n (fun i => slope n b A v i * d i)
     + (1 # 2) * qsum_to n (fun i => d i * qsum_to n (fun j => A i j * d j)))%Q.
Proof.
  intros n c b A v d S. unfold quadratic, slope.
  rewrite (qsum_ext n (fun i => b i * (v i + d i))%Q (fun i => b i * v i + b i * d i)%Q) by (intros; ring).
  rewrite sum_add.
  rewrite (qsum_ext n (fun i => (v i + d i) * qsum_to n (fun j => A i j * (v j + d j)))%Q
     (fun i => (v i * qsum_to n (fun j => A i j * v j) + v i * qsum_to n (fun j => A i j * d j)) +
               (d i * qsum_to n (fun j => A i j * v j) + d i * qsum_to n (fun j => A i j * d j)))%Q).
  2:{ intros k Hk. rewrite (qsum_ext n (fun j => A k j * (v j + d j))%Q (fun j => A k j * v j + A k j * d j)%Q) by (intros; ring).
      rewrite sum_add. ring. }
  rewrite !sum_add.
  rewrite (qsum_ext n (fun i => (b i + qsum_to n (fun j => A i j * v j)) * d i)%Q
     (fun i => b i * d i + d i * qsum_to n (fun j => A i j * v j))%Q) by (intros; ring).
  rewrite sum_add.
  assert (X : (qsum_to n (fun i => v i * qsum_to n (fun j => A i j * d j)) ==
               qsum_to n (fun i => d i * qsum_to n (fun j => A i j * v j)))%Q).
  { rewrite (qsum_ext n _ (fun i => qsum_to n (fun j => v i * (A i j * d j)))%Q) by (intros; rewrite sum_scale; reflexivity).
    rewrite sum_swap. apply qsum_ext. intros j Hj. rewrite <- sum_scale. apply qsum_ext. intros i Hi. rewrite (S i j Hi Hj). ring. }
  rewrite X. ring.
Qed.
Lemma quadratic_ext : forall n c b A v w, (forall k, (k < n)%nat -> (v k == w k)%Q) ->
    (quadratic n c b A v == quadratic n c b A w)%Q.
Proof.
  intros n c b A v w H. unfold quadratic.
  rewrite (qsum_ext n (fun i => b i * v i)%Q (fun i => b i * w i)%Q) by (intros k Hk; rewrite (H k Hk); reflexivity).
  rewrite (qsum_ext n (fun i => v i * qsum_to n (fun j => A i j * v j))%Q (fun i => w i * qsum_to n (fun j => A i j * w j))%Q).
  - reflexivity.
  - intros k Hk. rewrite (H k Hk). rewrite (qsum_ext n (fun j => A k j * v j)%Q (fun j => A k j * w j)%Q); [reflexivity|].
    intros j Hj. rewrite (H j Hj). reflexivity.
Qed.
Lemma slope_ext : forall n b A v w i, (forall k, (k < n)%nat -> (v k == w k)%Q) -> (slope n b A v i == slope n b A w i)%Q.
Proof.
  intros n b A v w i H. unfold slope. rewrite (qsum_ext n (fun j => A i j * v j)%Q (fun j => A i j * w j)%Q); [reflexivity|].
  intros j Hj. rewrite (H j Hj). reflexivity.
Qed.

(** A function with an exact quadratic expansion has the linear coefficient as derivative. *)
Lemma derivative_of_expansion : forall f x d a, (forall h, f (x + h) == f x + d * h + a * (h * h))%Q -> has_derivative f x d.
Proof.
  intros f x d a H eps He.
  assert (Pa : (0 < Qabs a + 1)%Q) by (pose proof (Qabs_nonneg a); lra).
  exists (eps / (Qabs a + 1))%Q. split; [apply Qlt_shift_div_l; lra|]. intros h Hh.
  assert (E : (eps / (Qabs a + 1) * (Qabs a + 1) == eps)%Q) by (field; lra).
  rewrite H. setoid_replace (f x + d * h + a * (h * h) - f x - d * h)%Q with (a * h * h)%Q by ring.
  rewrite !Qabs_Qmult. pose proof (Qabs_nonneg a). pose proof (Qabs_nonneg h).
  assert (L : (Qabs a * Qabs h <= eps)%Q).
  { rewrite <- E. set (z := (eps / (Qabs a + 1))%Q) in *. nra. }
  nra.
Qed.

(** ** Controls set to values *)

Lemma assign_in : forall us env (v : nat -> Q) start i, NoDup us -> i < length us ->
    assign env us (map v (seq start (length us))) (nth i us 0%nat) = v (start + i).
Proof.
  induction us as [|u us IH]; intros env v start i ND Hi; simpl in Hi; [lia|].
  inversion ND; subst. cbn [length seq map assign]. destruct i as [|i]; cbn [nth].
  - destruct (Nat.eq_dec u u); [|contradiction]. f_equal. lia.
  - destruct (Nat.eq_dec (nth i us 0) u) as [E|_].
    + exfalso. apply H1. rewrite <- E. apply nth_In. lia.
    + rewrite IH by (auto; lia). f_equal. lia.
Qed.
Lemma controls_in : forall us env v i, NoDup us -> i < length us -> controls_at env us v (nth i us 0%nat) = v i.
Proof. intros. unfold controls_at. rewrite assign_in by assumption. reflexivity. Qed.
Lemma controls_out : forall us env v s, ~ In s us -> controls_at env us v s = env s.
Proof. intros. apply assign_notin. assumption. Qed.
Lemma controls_with_value : forall F us env v i t e, NoDup us -> i < length us ->
    eval F (with_value (controls_at env us v) (nth i us 0%nat) t) e =
    eval F (controls_at env us (fun k => if k =? i then t else v k)) e.
Proof.
  intros F us env v i t e ND Hi. apply eval_ext. intros s _. unfold with_value.
  destruct (Nat.eqb_spec s (nth i us 0%nat)) as [->|Ne].
  - rewrite controls_in, Nat.eqb_refl by assumption. reflexivity.
  - destruct (in_dec Nat.eq_dec s us) as [I|I].
    + destruct (In_nth _ _ 0%nat I) as [k [Hk <-]]. rewrite !controls_in by assumption.
      destruct (Nat.eqb_spec k i) as [->|]; [contradiction|reflexivity].
    + rewrite !controls_out by assumption. reflexivity.
Qed.
Lemma controls_own : forall F us env e, NoDup us ->
    eval F (controls_at env us (fun k => env (nth k us 0%nat))) e = eval F env e.
Proof.
  intros F us env e ND. apply eval_ext. intros s _. destruct (in_dec Nat.eq_dec s us) as [I|I].
  - destruct (In_nth _ _ 0%nat I) as [k [Hk <-]]. rewrite controls_in by assumption. reflexivity.
  - apply controls_out, I.
Qed.
Lemma controls_own_at : forall us env s, NoDup us -> controls_at env us (fun k => env (nth k us 0%nat)) s = env s.
Proof.
  intros us env s ND. destruct (in_dec Nat.eq_dec s us) as [I|I].
  - destruct (In_nth _ _ 0%nat I) as [k [Hk <-]]. rewrite controls_in by assumption. reflexivity.
  - apply controls_out, I.
Qed.

Section Quadratic.
  Variables (F : nat -> Q -> Q) (dfun : nat -> expr -> expr) (env : sym -> Q) (us : list sym) (H : expr).
  Variables (c : Q) (b : nat -> Q) (A : nat -> nat -> Q).
  Hypothesis HF : respects F.
  Hypothesis ND : NoDup us.
  Hypothesis HQ : quadratic_in F env us H c b A.
  Hypothesis HS : smooth_in F dfun env us H.
  Hypothesis Sym : symmetric (length us) A.
  Let n := length us.

  Lemma quadratic_partial : forall v i, i < n ->
      partial F (controls_at env us v) H (nth i us 0%nat) (slope n b A v i).
  Proof.
    intros v i Hi. unfold partial.
    assert (E : forall t, (quadratic n c b A (fun k => if k =? i then t else v k) ==
                           eval F (with_value (controls_at env us v) (nth i us 0%nat) t) H)%Q).
    { intros t. rewrite controls_with_value by assumption. symmetry. apply HQ. }
    eapply derivative_ext; [exact E | reflexivity |]. rewrite (controls_in us env v i ND Hi).
    apply (derivative_of_expansion _ _ _ ((1 # 2) * A i i)). intros h.
    rewrite (quadratic_ext n c b A (fun k => if k =? i then (v i + h)%Q else v k)
               (fun k => v k + (if k =? i then 1 else 0) * h)%Q).
    2:{ intros k Hk. destruct (Nat.eqb_spec k i) as [->|]; ring. }
    rewrite (quadratic_expand n c b A v (fun k => (if k =? i then 1 else 0) * h)%Q Sym).
    rewrite (quadratic_ext n c b A (fun k => if k =? i then v i else v k) v).
    2:{ intros k Hk. destruct (Nat.eqb_spec k i) as [->|]; reflexivity. }
    rewrite (qsum_ext n (fun i0 => slope n b A v i0 * ((if i0 =? i then 1 else 0) * h))%Q
               (fun k => (if k =? i then 1 else 0) * (slope n b A v k * h))%Q) by (intros; ring).
    rewrite (qsum_single n i (fun k => slope n b A v k * h)%Q Hi).
    rewrite (qsum_ext n (fun i0 => (if i0 =? i then 1 else 0) * h * qsum_to n (fun j => A i0 j * ((if j =? i then 1 else 0) * h)))%Q
               (fun k => (if k =? i then 1 else 0) * (h * (A k i * h)))%Q).
    2:{ intros k Hk. rewrite (qsum_ext n (fun j => A k j * ((if j =? i then 1 else 0) * h))%Q
                               (fun j => (if j =? i then 1 else 0) * (A k j * h))%Q) by (intros; ring).
        rewrite (qsum_single n i (fun j => A k j * h)%Q Hi). ring. }
    rewrite (qsum_single n i (fun k => h * (A k i * h))%Q Hi). ring.
  Qed.

  (** The gradient computed symbolically. *)
  Lemma gradient_value : forall v i, i < n ->
      (eval F (controls_at env us v) (diff dfun (nth i us 0%nat) H) == slope n b A v i)%Q.
  Proof.
    intros v i Hi. eapply derivative_unique; [|apply quadratic_partial; exact Hi].
    apply diff_correct; [exact HF | apply (proj1 (HS v))].
  Qed.
  (** The Hessian computed symbolically. *)
  Lemma hessian_value : forall i j, i < n -> j < n ->
      (eval F env (diff dfun (nth j us 0%nat) (diff dfun (nth i us 0%nat) H)) == A i j)%Q.
  Proof.
    intros i j Hi Hj. rewrite <- (controls_own F us env _ ND). set (v := fun k => env (nth k us 0%nat)).
    eapply derivative_unique.
    - apply (diff_correct F dfun (controls_at env us v) (nth j us 0%nat)); [exact HF|].
      apply (proj2 (HS v)). unfold gradient. apply in_map_iff. exists (nth i us 0%nat). split; [reflexivity | apply nth_In; exact Hi].
    - assert (E : forall t, (slope n b A (fun k => if k =? j then t else v k) i ==
          eval F (with_value (controls_at env us v) (nth j us 0%nat) t) (diff dfun (nth i us 0%nat) H))%Q).
      { intros t. rewrite controls_with_value by assumption. symmetry. apply gradient_value, Hi. }
      eapply derivative_ext; [exact E | reflexivity |]. rewrite (controls_in us env v j ND Hj).
      apply (derivative_of_expansion _ _ _ 0). intros h.
      rewrite (slope_ext n b A (fun k => if k =? j then (v j + h)%Q else v k) (bump v j h) i).
      2:{ intros k Hk. unfold bump. destruct (Nat.eqb_spec k j) as [->|]; ring. }
      rewrite (slope_ext n b A (fun k => if k =? j then v j else v k) v i).
      2:{ intros k Hk. destruct (Nat.eqb_spec k j) as [->|]; reflexivity. }
      unfold slope. rewrite sum_bump by exact Hj. ring.
  Qed.
  (** The gradient with the controls replaced by zero. *)
  Lemma gradient_at_zero : forall i, i < n ->
      (eval F env (substitute (diff dfun (nth i us 0%nat) H) us (map (fun _ => EConst 0%Q) us)) == b i)%Q.
  Proof.
    intros i Hi. rewrite eval_assign, map_map. cbn [eval].
    assert (E : map (fun _ : sym => 0%Q) us = map (fun _ : nat => 0%Q) (seq 0 (length us))).
    { clear. generalize 0%nat. induction us as [|u l IH]; intros s; [reflexivity|]. simpl. f_equal. apply IH. }
    rewrite E. fold (controls_at env us (fun _ => 0%Q)). rewrite gradient_value by exact Hi. unfold slope.
    rewrite (qsum_ext n (fun j => A i j * 0)%Q (fun j => 0 * A i j)%Q) by (intros; ring). rewrite sum_scale. ring.
  Qed.
End Quadratic.

(** ** Saturation *)

Definition clamp (lo hi : ext) (v : Q) : Q :=
  let w := match lo with Fin a => Qmax v a | _ => v end in
  match hi with Fin b => Qmin w b | _ => w end.

Lemma saturate_value : forall F env e lo hi e', saturate e lo hi = Ok e' ->
    lo <> PInf /\ hi <> NInf /\ eval F env e' = clamp lo hi (eval F env e).
Proof.
  intros F env e lo hi e' H. unfold saturate in H.
  destruct lo, hi; try discriminate; injection H as <-; repeat split; discriminate.
Qed.
Lemma saturate_all_nth : forall F env es lo hi l, saturate_all es lo hi = Ok l ->
    length l = length es /\
    forall i, i < length es ->
      (nth i lo NInf <> PInf /\ nth i hi PInf <> NInf) /\
      eval F env (nth i l (EConst 0%Q)) = clamp (nth i lo NInf) (nth i hi PInf) (eval F env (nth i es (EConst 0%Q))).
Proof.
  intros F env es. induction es as [|e es IH]; intros lo hi l H; cbn [saturate_all] in H.
  - injection H as <-. split; [reflexivity|]. intros i Hi. simpl in Hi. lia.
  - destruct lo as [|a lo]; [discriminate|]. destruct hi as [|b hi]; [discriminate|].
    destruct (saturate e a b) as [e'|] eqn:E; [|discriminate].
    destruct (saturate_all es lo hi) as [l'|] eqn:E'; [|discriminate]. injection H as <-.
    destruct (IH _ _ _ E') as [L K]. split; [simpl; congruence|]. intros [|i] Hi; cbn [nth].
    + apply (saturate_value F env) in E. tauto.
    + apply K. simpl in Hi. lia.
Qed.

Lemma clamp_between : forall lo hi v, consistent lo hi -> between lo hi (clamp lo hi v).
Proof.
  intros lo hi v [w [H1 H2]]. unfold between, above, below, clamp in *.
  destruct lo as [|a|], hi as [|b|]; try contradiction; split; try exact I.
  - apply Q.le_min_r.
  - apply Q.min_glb; [apply Q.le_max_r | lra].
  - apply Q.le_min_r.
  - apply Q.le_max_r.
Qed.
Lemma clamp_inside : forall lo hi v, between lo hi v -> (clamp lo hi v == v)%Q.
Proof.
  intros lo hi v [H1 H2]. unfold above, below, clamp in *.
  destruct lo as [|a|], hi as [|b|]; try contradiction; try reflexivity.
  - apply Q.min_l. exact H2.
  - rewrite (Q.max_l v a H1). apply Q.min_l. exact H2.
  - apply Q.max_l. exact H1.
Qed.
(** Where the clamped value is relative to the value itself. *)
Lemma clamp_cases : forall lo hi v, consistent lo hi ->
    (clamp lo hi v == v)%Q \/
    (v <= clamp lo hi v /\ forall w, above lo w -> clamp lo hi v <= w)%Q \/
    (clamp lo hi v <= v /\ forall w, below w hi -> w <= clamp lo hi v)%Q.
Proof.
  intros lo hi v [x [H1 H2]]. unfold above, below, clamp in *.
  destruct lo as [|a|], hi as [|b|]; try contradiction.
  - destruct (Qlt_le_dec b v) as [L|L].
    + right. right. assert (E : (Qmin v b == b)%Q) by (apply Q.min_r; lra).
      split; [|intros w Hw]; rewrite E; lra.
    + left. apply Q.min_l. exact L.
  - left. reflexivity.
  - destruct (Qlt_le_dec v a) as [L|L].
    + right. left. assert (E : (Qmin (Qmax v a) b == a)%Q) by (rewrite (Q.max_r v a) by lra; apply Q.min_l; lra).
      split; [|intros w Hw]; rewrite E; lra.
    + destruct (Qlt_le_dec b v) as [L'|L'].
      * right. right. assert (E : (Qmin (Qmax v a) b == b)%Q) by (rewrite (Q.max_l v a L); apply Q.min_r; lra).
        split; [|intros w Hw]; rewrite E; lra.
      * left. rewrite (Q.max_l v a L). apply Q.min_l. exact L'.
  - destruct (Qlt_le_dec v a) as [L|L].
    + right. left. assert (E : (Qmax v a == a)%Q) by (apply Q.max_r; lra).
      split; [|intros w Hw]; rewrite E; lra.
    + left. apply Q.max_l. exact L.
Qed.
Lemma square_nonneg : forall x : Q, (0 <= x * x)%Q.
Proof. intros x. destruct (Qlt_le_dec x 0); nra. Qed.
(** The clamped vertex of a parabola is its lowest feasible point. *)
Lemma clamp_lowest : forall lo hi a s w, (0 < a)%Q -> between lo hi w ->
    ((1 # 2) * a * (clamp lo hi s - s) * (clamp lo hi s - s) <= (1 # 2) * a * (w - s) * (w - s))%Q.
Proof.
  intros lo hi a s w Ha Hw. destruct (clamp_cases lo hi s (ex_intro _ w Hw)) as [E|[[L K]|[L K]]].
  - rewrite E. pose proof (square_nonneg (w - s)). nra.
  - pose proof (K w (proj1 Hw)). set (z := clamp lo hi s) in *.
    assert ((z - s) * (z - s) <= (w - s) * (w - s))%Q by nra. nra.
  - pose proof (K w (proj2 Hw)). set (z := clamp lo hi s) in *.
    assert ((z - s) * (z - s) <= (w - s) * (w - s))%Q by nra. nra.
Qed.

(** ** The computed control *)

Lemma esum_row : forall F env row v n, length row = n -> length v = n ->
    (eval F env (esum (map (fun ab => EBin OMul (fst ab) (snd ab)) (combine row v))) ==
     qsum_to n (fun j => eval F env (nth j row (EConst 0)) * eval F env (nth j v (EConst 0))))%Q.
Proof.
  intros F env row. induction row as [|r row IH]; intros [|x v] n H1 H2; simpl in H1, H2; subst; try discriminate.
  - reflexivity.
  - rewrite qsum_shift. cbn [combine map esum fold_right eval binop_eval fst snd nth].
    change (fold_right (EBin OAdd) (EConst 0%Q)) with esum. rewrite (IH v (length row)) by congruence. reflexivity.
Qed.
Lemma times_value : forall F env M v n i, shape n M -> length v = n -> i < n ->
    (eval F env (nth i (map neg (times M v)) (EConst 0)) ==
     - qsum_to n (fun j => value_at F env M i j * eval F env (nth j v (EConst 0))))%Q.
Proof.
  intros F env M v n i [LM HM] Lv Hi. unfold times. rewrite map_map.
  set (f := fun row => neg (esum (map (fun ab => EBin OMul (fst ab) (snd ab)) (combine row v)))).
  rewrite (nth_indep _ (EConst 0%Q) (f [])) by (rewrite map_length; lia). rewrite (map_nth f).
  unfold f, neg. cbn [eval binop_eval]. rewrite (esum_row _ _ _ _ n).
  - unfold value_at. ring.
  - rewrite Forall_forall in HM. apply HM, nth_In. lia.
  - exact Lv.
Qed.

Lemma gradient_nth : forall dfun e us i, i < length us ->
    nth i (gradient dfun e us) (EConst 0%Q) = diff dfun (nth i us 0%nat) e.
Proof.
  intros dfun e us i Hi. unfold gradient. rewrite (nth_indep _ (EConst 0%Q) (diff dfun 0%nat e)) by (rewrite map_length; exact Hi).
  apply (map_nth (fun s => diff dfun s e)).
Qed.
Lemma subst_vec_nth : forall es a c i, i < length es ->
    nth i (subst_vec es a c) (EConst 0%Q) = substitute (nth i es (EConst 0%Q)) a c.
Proof.
  intros es a c i Hi. unfold subst_vec. rewrite (nth_indep _ (EConst 0%Q) (substitute (EConst 0%Q) a c)) by (rewrite map_length; exact Hi).
  apply (map_nth (fun e => substitute e a c)).
Qed.
Lemma hessian_nth : forall dfun e us i j, i < length us -> j < length us ->
    nth j (nth i (hessian dfun e us) []) (EConst 0%Q) = diff dfun (nth j us 0%nat) (diff dfun (nth i us 0%nat) e).
Proof.
  intros dfun e us i j Hi Hj. unfold hessian.
  rewrite (nth_indep _ [] (gradient dfun (diff dfun 0%nat e) us)) by (rewrite map_length; exact Hi).
  rewrite (map_nth (fun s => gradient dfun (diff dfun s e) us)). apply gradient_nth, Hj.
Qed.
Lemma hessian_shape : forall dfun e us, shape (length us) (hessian dfun e us).
Proof.
  intros dfun e us. unfold hessian, shape. split; [apply map_length|]. apply Forall_forall. intros r Hr.
  apply in_map_iff in Hr. destruct Hr as [s [<- _]]. unfold gradient. apply map_length.
Qed.

Lemma inverse_of_ext : forall n A A' B, (forall i j, i < n -> j < n -> (A i j == A' i j)%Q) ->
    inverse_of n A B -> inverse_of n A' B.
Proof.
  intros n A A' B E H i j Hi Hj. rewrite <- (H i j Hi Hj). apply qsum_ext. intros k Hk. rewrite (E i k Hi Hk). reflexivity.
Qed.

(** The solution of the linear system, in terms of the inverse. *)
Lemma solves_system : forall n A B b, inverse_of n A B ->
    forall i, i < n -> (b i + qsum_to n (fun j => A i j * - qsum_to n (fun k => B j k * b k)) == 0)%Q.
Proof.
  intros n A B b H i Hi.
  rewrite (qsum_ext n (fun j => A i j * - qsum_to n (fun k => B j k * b k))%Q
             (fun j => (-1) * qsum_to n (fun k => (A i j * B j k) * b k))%Q).
  2:{ intros j Hj. rewrite (qsum_ext n (fun k => A i j * B j k * b k)%Q (fun k => A i j * (B j k * b k))%Q) by (intros; ring).
      rewrite sum_scale. ring. }
  rewrite sum_scale, sum_swap.
  rewrite (qsum_ext n (fun k => qsum_to n (fun j => A i j * B j k * b k))%Q (fun k => (if k =? i then 1 else 0) * b k)%Q).
  - rewrite (qsum_single n i b Hi). ring.
  - intros k Hk. rewrite (qsum_ext n (fun j => A i j * B j k * b k)%Q (fun j => b k * (A i j * B j k))%Q) by (intros; ring).
    rewrite sum_scale, (H i k Hi Hk). rewrite (Nat.eqb_sym k i). ring.
Qed.
Lemma unique_solution : forall n A B b s t, symmetric n A -> inverse_of n A B ->
    (forall i, i < n -> (b i + qsum_to n (fun j => A i j * s j) == 0)%Q) ->
    (forall i, i < n -> (b i + qsum_to n (fun j => A i j * t j) == 0)%Q) ->
    forall i, i < n -> (s i == t i)%Q.
Proof.
  intros n A B b s t S H Hs Ht i Hi.
  assert (Z : forall w, (qsum_to n (fun k => B k i * qsum_to n (fun j => A k j * w j)) == w i)%Q).
  { intros w. rewrite (qsum_ext n _ (fun k => qsum_to n (fun j => B k i * (A k j * w j)))%Q) by (intros; rewrite sum_scale; reflexivity).
    rewrite sum_swap.
    rewrite (qsum_ext n _ (fun j => (if j =? i then 1 else 0) * w j)%Q); [apply qsum_single, Hi|].
    intros j Hj. rewrite (qsum_ext n (fun i0 => B i0 i * (A i0 j * w j))%Q (fun k => w j * (A j k * B k i))%Q).
    - rewrite sum_scale, (H j i Hj Hi). ring.
    - intros k Hk. rewrite (S k j Hk Hj). ring. }
  rewrite <- (Z s), <- (Z t). apply qsum_ext. intros k Hk. specialize (Hs k Hk). specialize (Ht k Hk).
  assert (E : (qsum_to n (fun j => A k j * s j) == qsum_to n (fun j => A k j * t j))%Q) by lra. rewrite E. reflexivity.
Qed.

Lemma between_ext : forall lo hi v w, (v == w)%Q -> between lo hi v -> between lo hi w.
Proof.
  intros lo hi v w E [P1 P2]. split.
  - destruct lo; simpl in *; try assumption. rewrite <- E. exact P1.
  - destruct hi; simpl in *; try assumption. rewrite <- E. exact P2.
Qed.

Section Control.
  Variables (F : nat -> Q -> Q) (dfun : nat -> expr -> expr) (zero : list (list expr) -> bool)
            (inverse : list (list expr) -> res (list (list expr))) (env : sym -> Q) (k : indirect).
  Variables (c : Q) (b : nat -> Q) (A B : nat -> nat -> Q) (u_opt : list expr).
  Let us := m_u (i_model k).
  Let n := length us.
  Let o := i_problem k.
  Let lo i := nth i (o_u_min o) NInf.
  Let hi i := nth i (o_u_max o) PInf.
  Hypothesis HF : respects F.
  Hypothesis ND : NoDup us.
  Hypothesis HQ : quadratic_in F env us (i_H k) c b A.
  Hypothesis HS : smooth_in F dfun env us (i_H k).
  Hypothesis Sym : symmetric n A.
  Hypothesis HI : inverts F inverse.
  Hypothesis HB : inverse_of n A B.
  Hypothesis HU : calculate_optimal_control dfun zero inverse k = Ok u_opt.

  Lemma control_value : exists s,
      (forall i, i < n -> (slope n b A s i == 0)%Q) /\ length u_opt = n /\
      forall i, i < n -> (lo i <> PInf /\ hi i <> NInf) /\
        (eval F env (nth i u_opt (EConst 0%Q)) == clamp (lo i) (hi i) (s i))%Q.
  Proof.
    unfold calculate_optimal_control in HU. fold us in HU.
    destruct (zero (hessian dfun (i_H k) us)); [discriminate|].
    destruct (inverse (hessian dfun (i_H k) us)) as [M|] eqn:EM; [|discriminate].
    destruct (HI _ _ _ (hessian_shape dfun (i_H k) us) EM) as [SM IM]. fold n in SM, IM.
    assert (VH : forall i j, i < n -> j < n -> (value_at F env (hessian dfun (i_H k) us) i j == A i j)%Q).
    { intros i j Hi Hj. unfold value_at. rewrite hessian_nth by assumption.
      apply (hessian_value F dfun env us (i_H k) c b A HF ND HQ HS Sym i j Hi Hj). }
    assert (IA : inverse_of n A (value_at F env M)).
    { eapply inverse_of_ext; [exact VH|]. apply IM. exists B.
      eapply inverse_of_ext; [|exact HB]. intros i j Hi Hj. symmetry. apply VH; assumption. }
    set (g := subst_vec (gradient dfun (i_H k) us) us (map (fun _ => EConst 0%Q) us)) in *.
    assert (Lg : length g = n) by (unfold g, subst_vec, gradient; rewrite !map_length; reflexivity).
    exists (fun i => - qsum_to n (fun j => value_at F env M i j * b j))%Q.
    assert (Lt : length (map neg (times M g)) = n).
    { unfold times. rewrite !map_length. apply SM. }
    destruct (saturate_all_nth F env _ _ _ _ HU) as [LU KU]. rewrite Lt in LU, KU.
    split; [|split; [exact LU|]].
    - intros i Hi. apply (solves_system n A (value_at F env M) b IA i Hi).
    - intros i Hi. destruct (KU i Hi) as [K1 K2]. split; [exact K1|]. rewrite K2.
      assert (E : (eval F env (nth i (map neg (times M g)) (EConst 0)) ==
                   - qsum_to n (fun j => value_at F env M i j * b j))%Q).
      { rewrite (times_value F env M g n i SM Lg Hi). apply Qopp_comp. apply qsum_ext. intros j Hj.
        assert (E : (eval F env (nth j g (EConst 0)) == b j)%Q).
        { unfold g. rewrite subst_vec_nth by (unfold gradient; rewrite map_length; exact Hj).
          rewrite gradient_nth by exact Hj.
          apply (gradient_at_zero F dfun env us (i_H k) c b A HF ND HQ HS Sym j Hj). }
        rewrite E. reflexivity. }
      unfold clamp, lo, hi, o. destruct (nth i (o_u_min (i_problem k)) NInf), (nth i (o_u_max (i_problem k)) PInf); rewrite E; reflexivity.
  Qed.

  (** A stationary point of the Hamiltonian. *)
  Lemma stationary_slope : forall s, (forall i, i < n -> partial F (controls_at env us s) (i_H k) (nth i us 0%nat) 0%Q) <->
      (forall i, i < n -> (slope n b A s i == 0)%Q).
  Proof.
    intros s. split; intros H i Hi.
    - eapply derivative_unique; [apply (quadratic_partial F env us (i_H k) c b A ND HQ Sym s i Hi) | apply H, Hi].
    - apply (partial_ext _ _ _ _ (slope n b A s i)); [apply H, Hi|].
      apply (quadratic_partial F env us (i_H k) c b A ND HQ Sym s i Hi).
  Qed.

  Lemma control_stationary : exists s,
      (forall i, i < n -> partial F (controls_at env us s) (i_H k) (nth i us 0%nat) 0%Q) /\
      (feasible o s -> forall i, i < n -> (eval F env (nth i u_opt (EConst 0%Q)) == s i)%Q).
  Proof.
    destruct control_value as [s [Hs [_ Hu]]]. exists s. split; [apply stationary_slope, Hs|].
    intros Hf i Hi. destruct (Hu i Hi) as [_ E]. rewrite E. apply clamp_inside, Hf, Hi.
  Qed.
  Lemma stationary_unique : forall s t,
      (forall i, i < n -> partial F (controls_at env us s) (i_H k) (nth i us 0%nat) 0%Q) ->
      (forall i, i < n -> partial F (controls_at env us t) (i_H k) (nth i us 0%nat) 0%Q) ->
      forall i, i < n -> (s i == t i)%Q.
  Proof.
    intros s t Hs Ht.
    apply (unique_solution n A B b s t Sym HB (proj1 (stationary_slope s) Hs) (proj1 (stationary_slope t) Ht)).
  Qed.

  Let u_star : nat -> Q := fun i => eval F env (nth i u_opt (EConst 0%Q)).
  Lemma control_feasible : (forall i, i < n -> consistent (lo i) (hi i)) -> feasible o u_star.
  Proof.
    intros Hc i Hi. destruct control_value as [s [_ [_ Hu]]]. destruct (Hu i Hi) as [_ E].
    apply (between_ext _ _ _ _ (Qeq_sym _ _ E)). apply clamp_between, Hc, Hi.
  Qed.

  (** Value of the quadratic function around a stationary point. *)
  Lemma around_stationary : forall s w, (forall i, i < n -> (slope n b A s i == 0)%Q) ->
      (eval F (controls_at env us w) (i_H k) ==
       quadratic n c b A s + (1 # 2) * qsum_to n (fun i => (w i - s i) * qsum_to n (fun j => A i j * (w j - s j))))%Q.
  Proof.
    intros s w Hs. rewrite (HQ w). fold n. rewrite (quadratic_ext n c b A w (fun k => s k + (w k - s k))%Q) by (intros; ring).
    rewrite (quadratic_expand n c b A s (fun k => w k - s k)%Q Sym).
    rewrite (qsum_ext n (fun i => slope n b A s i * (w i - s i))%Q (fun i => 0 * (w i - s i))%Q).
    2:{ intros i Hi. rewrite (Hs i Hi). reflexivity. }
    rewrite sum_scale. ring.
  Qed.
  Lemma control_minimises_diagonal : diagonal_positive n A -> forall w, feasible o w ->
      (eval F (controls_at env us u_star) (i_H k) <= eval F (controls_at env us w) (i_H k))%Q.
  Proof.
    intros [Pos Off] w Hw. destruct control_value as [s [Hs [_ Hu]]].
    rewrite (around_stationary s u_star Hs), (around_stationary s w Hs).
    assert (D : forall v i, i < n -> ((v i - s i) * qsum_to n (fun j => A i j * (v j - s j)) == A i i * (v i - s i) * (v i - s i))%Q).
    { intros v i Hi. rewrite (qsum_ext n (fun j => A i j * (v j - s j))%Q (fun j => (if j =? i then 1 else 0) * (A i i * (v i - s i)))%Q).
      - rewrite (qsum_single n i (fun _ => A i i * (v i - s i))%Q Hi). ring.
      - intros j Hj. destruct (Nat.eqb_spec j i) as [->|Ne]; [ring|]. rewrite (Off i j Hi Hj ltac:(auto)). ring. }
    assert (L : (qsum_to n (fun i => (u_star i - s i) * qsum_to n (fun j => A i j * (u_star j - s j))) <=
                 qsum_to n (fun i => (w i - s i) * qsum_to n (fun j => A i j * (w j - s j))))%Q).
    { apply sum_le. intros i Hi. rewrite (D u_star i Hi), (D w i Hi).
      destruct (Hu i Hi) as [_ E]. unfold u_star. rewrite E.
      pose proof (clamp_lowest (lo i) (hi i) (A i i) (s i) (w i) (Pos i Hi) (Hw i Hi)). lra. }
    lra.
  Qed.
  Lemma control_minimises_feasible : semidefinite n A -> forall s,
      (forall i, i < n -> partial F (controls_at env us s) (i_H k) (nth i us 0%nat) 0%Q) -> feasible o s ->
      forall w, (eval F (controls_at env us u_star) (i_H k) <= eval F (controls_at env us w) (i_H k))%Q.
  Proof.
    intros PS s Hs Hf w. pose proof (proj1 (stationary_slope s) Hs) as Hs0.
    rewrite (around_stationary s u_star Hs0), (around_stationary s w Hs0).
    assert (E : forall i, i < n -> (u_star i == s i)%Q).
    { intros i Hi. destruct control_stationary as [t [Ht Hu]].
      pose proof (stationary_unique s t Hs Ht) as Est. unfold u_star. rewrite (Est i Hi). apply Hu; [|exact Hi].
      intros j Hj. apply (between_ext _ _ _ _ (Est j Hj)), Hf, Hj. }
    assert (Z : (qsum_to n (fun i => (u_star i - s i) * qsum_to n (fun j => A i j * (u_star j - s j))) == 0)%Q).
    { rewrite (qsum_ext n _ (fun i => 0 * 0)%Q); [rewrite sum_scale; ring|]. intros i Hi. rewrite (E i Hi). ring. }
    rewrite Z. pose proof (PS (fun i => w i - s i)%Q) as P. cbv beta in P. lra.
  Qed.
End Control.

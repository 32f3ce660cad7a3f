From Coq Require Import String Factorial Lqa Permutation.
From Verif Require Import Base BaseProofs UtilModel ExprModel SysModel OcpModel StoModel StoSpec StoProofs.
Local Open Scope list_scope.

(** ** Samples *)

Lemma cov_at_app2 : forall gs hs i j, let n := length (flat_map g_syms gs) in
  cov_at (gs ++ hs) i j =
  if i <? n then if j <? n then cov_at gs i j else 0%Q else if j <? n then 0%Q else cov_at hs (i - n) (j - n).
Proof.
  induction gs as [|g gs IH]; intros hs i j; simpl.
  - rewrite !Nat.sub_0_r. reflexivity.
  - rewrite app_length.
    destruct (Nat.ltb_spec i (length (g_syms g))); destruct (Nat.ltb_spec j (length (g_syms g)));
      destruct (Nat.ltb_spec i (length (g_syms g) + length (flat_map g_syms gs)));
      destruct (Nat.ltb_spec j (length (g_syms g) + length (flat_map g_syms gs))); try lia; auto.
    all: rewrite IH.
    all: destruct (Nat.ltb_spec (i - length (g_syms g)) (length (flat_map g_syms gs)));
         destruct (Nat.ltb_spec (j - length (g_syms g)) (length (flat_map g_syms gs))); try lia; auto.
    f_equal; lia.
Qed.

Lemma qsum_ext : forall n f g, (forall k, k < n -> (f k == g k)%Q) -> (qsum_to n f == qsum_to n g)%Q.
Proof.
  intros n f g H. unfold qsum_to.
  assert (G : forall l, (forall k, In k l -> (f k == g k)%Q) ->
            (fold_right Qplus 0%Q (map f l) == fold_right Qplus 0%Q (map g l))%Q).
  { induction l as [|a l IH]; simpl; intros H'; [reflexivity|]. rewrite IH by (intros; apply H'; auto).
    rewrite (H' a) by auto. reflexivity. }
  apply G. intros k Hk. apply H. apply in_seq in Hk. lia.
Qed.

Lemma qsum_shift : forall n f, (qsum_to (S n) f == f 0%nat + qsum_to n (fun k => f (S k)))%Q.
Proof. intros. unfold qsum_to. simpl. rewrite <- seq_shift, map_map. reflexivity. Qed.

Lemma dot_sum : forall a b n, length a = n -> length b = n ->
  (dot a b == qsum_to n (fun k => nth k a 0 * nth k b 0))%Q.
Proof.
  induction a as [|x a IH]; intros [|y b] n Ha Hb; simpl in *; subst; try discriminate; [reflexivity|].
  rewrite qsum_shift. unfold dot in *. simpl. rewrite (IH b (length a)); auto. reflexivity.
Qed.

Lemma transpose_row : forall n R z i, square n R -> length z = n -> i < n ->
  (nth i (mat_vec (transpose R) z) 0 == qsum_to n (fun k => entry R k i * nth k z 0))%Q.
Proof.
  intros n R z i [L F] Hz Hi. assert (R <> []) by (destruct R; simpl in *; [lia|discriminate]).
  unfold mat_vec, transpose. rewrite (columns_square n R) by (auto; split; auto). rewrite map_map.
  rewrite (nth_indep _ 0%Q ((fun x => dot (map (fun r => nth x r 0%Q) R) z) 0%nat)) by (rewrite map_length, seq_length; lia).
  rewrite (map_nth (fun x => dot (map (fun r => nth x r 0%Q) R) z)), seq_nth by lia. simpl.
  rewrite (dot_sum _ _ n) by (auto; rewrite map_length; auto).
  apply qsum_ext. intros k Hk. unfold entry.
  rewrite (nth_indep _ 0%Q ((fun r => nth i r 0%Q) [])) by (rewrite map_length; lia).
  rewrite (map_nth (fun r => nth i r 0%Q)). reflexivity.
Qed.

Lemma add_vec_nth : forall a b i, length a = length b -> (nth i (add_vec a b) 0 == nth i a 0 + nth i b 0)%Q.
Proof.
  induction a as [|x a IH]; intros [|y b] i H; simpl in *; try discriminate; [destruct i; reflexivity|].
  destruct i; [reflexivity|]. apply IH. congruence.
Qed.
Lemma add_vec_length : forall a b, length a = length b -> length (add_vec a b) = length a.
Proof. intros. unfold add_vec. rewrite map_length, combine_length. lia. Qed.
Lemma mat_vec_length : forall n R z, square n R -> length (mat_vec (transpose R) z) = n.
Proof.
  intros n R z [L F]. unfold mat_vec, transpose. rewrite !map_length, seq_length.
  destruct R as [|r R]; simpl in *; auto. inversion F; auto.
Qed.

Lemma qsum_single : forall n i (f : nat -> Q), i < n -> (qsum_to n (fun k => (if k =? i then 1 else 0) * f k) == f i)%Q.
Proof.
  intros n. induction n as [|n IH]; intros i f H; [lia|]. rewrite qsum_shift. destruct i as [|i].
  - simpl. rewrite (qsum_ext n _ (fun _ => 0%Q)); [|intros; simpl; ring].
    assert (Z : (qsum_to n (fun _ => 0) == 0)%Q).
    { clear. induction n; [reflexivity|]. rewrite qsum_shift, IHn. ring. }
    rewrite Z. ring.
  - simpl. rewrite (IH i (fun k => f (S k))) by lia. ring.
Qed.

Lemma identity_column : forall n M z i, is_identity n M -> length z = n -> i < n ->
  (nth i (mat_vec (transpose M) z) 0 == nth i z 0)%Q.
Proof.
  intros n M z i [S E] Hz Hi. rewrite (transpose_row n) by auto.
  rewrite (qsum_ext n _ (fun k => (if k =? i then 1 else 0) * nth k z 0)%Q).
  - apply (qsum_single n i (fun k => nth k z 0%Q)); auto.
  - intros k Hk. rewrite (E k i) by auto. reflexivity.
Qed.

(** The covariance a converter uses. *)
Lemma joined : forall gp gi syms mean cov dist syms' mean' cov' dist',
  describes gp syms mean cov dist -> describes gi syms' mean' cov' dist' -> syms <> [] ->
  square (length syms + length syms') (diagcat cov cov') /\
  forall i j, i < length syms + length syms' -> j < length syms + length syms' ->
    entry (diagcat cov cov') i j = cov_at (gp ++ gi) i j.
Proof.
  intros gp gi syms mean cov dist syms' mean' cov' dist' D D' N.
  pose proof (describes_none _ _ _ _ _ D) as DN.
  destruct D as (Hs & _ & _ & _ & _ & S & E). destruct D' as (Hs' & _ & _ & _ & _ & S' & E').
  assert (cov <> []) by (intros X; apply DN in X; contradiction).
  split; [apply diagcat_square; auto|].
  intros i j Hi Hj. rewrite (diagcat_entry (length syms) (length syms')); auto.
  rewrite cov_at_app2, <- Hs.
  destruct (Nat.ltb_spec i (length syms)); destruct (Nat.ltb_spec j (length syms)); auto.
  apply E'; lia.
Qed.

Lemma samples_of : forall normal chol v samples gp gi,
  let s := v_socp v in
  describes gp (s_p_unc s) (s_p_mean s) (s_p_cov s) (s_p_dist s) ->
  describes gi (s_ic s) (s_ic_mean s) (s_ic_cov s) (s_ic_dist s) ->
  (forall C R, chol C = Ok R -> factor_of (length C) R C) ->
  (forall k R, chol (eye k) = Ok R -> is_identity k R) ->
  let n := n_uncertain s in
  Forall (fun z => length z = n) (normal n (v_samples v)) ->
  sample_parameters normal chol v = Ok samples ->
  exists C R, square n C /\ (forall i j, i < n -> j < n -> entry C i j = cov_at (gp ++ gi) i j) /\ factor_of n R C /\
    Forall2 (fun z x => length x = n /\ forall i, i < n ->
               (nth i x 0 == nth i (flat_map g_mean (gp ++ gi)) 0 + qsum_to n (fun k => entry R k i * nth k z 0))%Q)
            (normal n (v_samples v)) samples.
Proof.
  intros normal chol v samples gp gi s D D' CF CI n HZ H.
  assert (Ln : n = length (s_p_unc s) + length (s_ic s)) by reflexivity.
  assert (Lm : length (s_p_mean s ++ s_ic_mean s) = n).
  { rewrite app_length. destruct D as (_ & _ & _ & L & _). destruct D' as (_ & _ & _ & L' & _). lia. }
  assert (Hm : s_p_mean s ++ s_ic_mean s = flat_map g_mean (gp ++ gi)).
  { rewrite flat_map_app. destruct D as (_ & -> & _). destruct D' as (_ & -> & _). reflexivity. }
  unfold sample_parameters in H. fold s in H.
  set (C0 := match n_p_unc s, n_uncertain_initial_condition s with
          | S _, S _ => Ok (diagcat (s_p_cov s) (s_ic_cov s))
          | S _, 0 => Ok (s_p_cov s)
          | 0, S _ => Ok (s_ic_cov s)
          | 0, 0 => Raise ValueError
          end) in H.
  assert (HC : forall C, C0 = Ok C -> square n C /\ forall i j, i < n -> j < n -> entry C i j = cov_at (gp ++ gi) i j).
  { intros C HC. unfold C0, n_p_unc, n_uncertain_initial_condition in HC.
    destruct (s_p_unc s) as [|a l] eqn:EP; destruct (s_ic s) as [|b l'] eqn:EI; simpl in HC; try discriminate; injection HC as <-; rewrite Ln.
    - destruct D as (Hs & _ & _ & _ & _ & S & _). destruct D' as (Hs' & _ & _ & _ & _ & S' & E').
      simpl. split; [exact S'|]. intros i j Hi Hj. rewrite cov_at_app2, <- Hs. simpl. rewrite !Nat.sub_0_r. apply E'; auto.
    - destruct D as (Hs & _ & _ & _ & _ & S & E). destruct D' as (Hs' & _ & _ & _ & _ & S' & E').
      rewrite Nat.add_0_r. split; [exact S|]. intros i j Hi Hj. rewrite cov_at_app2, <- Hs.
      destruct (Nat.ltb_spec i (length (a :: l))); [|simpl in *; lia]. destruct (Nat.ltb_spec j (length (a :: l))); [|simpl in *; lia]. apply E; auto.
    - apply (joined _ _ _ _ _ _ _ _ _ _ D D'). discriminate. }
  destruct C0 as [C|e]; [|discriminate]. cbn [bind] in H.
  destruct (HC C eq_refl) as [SC EC]. clear HC.
  destruct (forallb (String.eqb "normal") (s_p_dist s ++ s_ic_dist s)); [|discriminate].
  unfold sample_normal in H. rewrite repeat_length, Lm in H.
  destruct (chol (eye (length C))) as [I|e] eqn:HI; [|discriminate]. simpl in H.
  destruct (chol C) as [R|e] eqn:HR; [|discriminate]. simpl in H. injection H as <-.
  pose proof (CF C R HR) as FR. destruct SC as [LC FC]. rewrite LC in FR, HI. apply CI in HI.
  exists C, R. split; [split; auto|]. split; [exact EC|]. split; [exact FR|].
  rewrite map_map. clear CF CI.
  assert (SI : square n I) by apply HI. assert (SR : square n R) by apply FR.
  revert HZ. generalize (normal n (v_samples v)). induction l as [|z l IH]; intros HZ; simpl; constructor.
  - inversion HZ; subst.
    assert (LI : length (add_vec (repeat 0%Q n) (mat_vec (transpose I) z)) = n).
    { rewrite add_vec_length; rewrite repeat_length; auto. symmetry. apply mat_vec_length; auto. }
    split.
    + rewrite add_vec_length; auto. rewrite (mat_vec_length n); auto.
    + intros i Hi. rewrite add_vec_nth by (rewrite (mat_vec_length n); auto). rewrite Hm.
      rewrite (transpose_row n) by auto. apply Qplus_comp; [reflexivity|]. apply qsum_ext. intros k Hk.
      rewrite add_vec_nth by (rewrite repeat_length, (mat_vec_length n); auto).
      rewrite nth_repeat_zero, (identity_column n) by auto. ring.
  - inversion HZ; subst. apply IH. assumption.
Qed.

(** ** Exponents *)

Lemma product_in : forall k n e, In e (product_range k n) <-> length e = n /\ Forall (fun d => d < k) e.
Proof.
  intros k. induction n as [|n IH]; intros e; simpl.
  - split; [intros [<-|[]]; auto|]. intros [H _]. destruct e; [auto|discriminate].
  - rewrite in_flat_map. split.
    + intros [d [Hd H]]. apply in_map_iff in H. destruct H as [e' [<- H]]. apply IH in H. apply in_seq in Hd. destruct H. simpl. split; [auto|]. constructor; auto. lia.
    + intros [L F]. destruct e as [|d e]; [discriminate|]. inversion F; subst. exists d. split; [apply in_seq; lia|].
      apply in_map, IH. auto.
Qed.

Lemma nodup_product : forall k n, NoDup (product_range k n).
Proof.
  intros k. induction n as [|n IH]; simpl; [repeat constructor; auto|].
  assert (G : forall l, NoDup l -> NoDup (flat_map (fun e => map (cons e) (product_range k n)) l)).
  { induction l as [|d l IHl]; intros N; simpl; [constructor|]. inversion N; subst. apply NoDup_app_intro.
    - apply FinFun.Injective_map_NoDup; auto. intros a b E. congruence.
    - auto.
    - intros x Hx Hy. apply in_map_iff in Hx. destruct Hx as [e [<- _]]. apply in_flat_map in Hy.
      destruct Hy as [d' [Hd' H]]. apply in_map_iff in H. destruct H as [e' [E _]]. injection E as -> _. contradiction. }
  apply G, seq_NoDup.
Qed.

Lemma product_head : forall k n, exists rest, product_range (S k) n = repeat 0 n :: rest.
Proof.
  intros k. induction n as [|n [rest IH]]; simpl; [exists []; auto|]. rewrite IH. simpl. eexists. reflexivity.
Qed.

Lemma sum_zeros : forall n, fold_right Nat.add 0 (repeat 0 n) = 0.
Proof. induction n; simpl; auto. Qed.

Lemma exponents_all : forall n order,
  repeat 0 n :: exponents n order = filter (fun p => fold_right Nat.add 0 p <=? order) (product_range (order + 1) n).
Proof.
  intros. unfold exponents. rewrite Nat.add_1_r. destruct (product_head order n) as [rest ->]. simpl.
  rewrite sum_zeros. simpl. reflexivity.
Qed.

Lemma sum_bounds : forall e d b, fold_right Nat.add 0 e <= b -> In d e -> d <= b.
Proof. induction e as [|a e IH]; simpl; intros d b H I; [contradiction|]. destruct I as [->|I]; [lia|]. apply (IH d b); auto. lia. Qed.

Lemma exponents_in : forall n order e,
  In e (repeat 0 n :: exponents n order) <-> length e = n /\ degree_sum e <= order.
Proof.
  intros. rewrite exponents_all, filter_In, product_in, Nat.leb_le. unfold degree_sum. split.
  - intros [[L _] H]. auto.
  - intros [L H]. repeat split; auto. apply Forall_forall. intros d Hd. pose proof (sum_bounds _ _ _ H Hd). lia.
Qed.
Lemma exponents_nodup : forall n order, NoDup (repeat 0 n :: exponents n order).
Proof. intros. rewrite exponents_all. apply NoDup_filter, nodup_product. Qed.

(** Counting. *)
Fixpoint count (n b : nat) : nat :=
  match n with 0 => 1 | S n' => fold_right Nat.add 0 (map (fun e => count n' (b - e)) (seq 0 (S b))) end.

Lemma length_flat_map : forall (A B : Type) (f : A -> list B) l,
  length (flat_map f l) = fold_right Nat.add 0 (map (fun a => length (f a)) l).
Proof. induction l; simpl; auto. rewrite app_length. lia. Qed.
Lemma filter_flat_map : forall (A B : Type) (p : B -> bool) (f : A -> list B) l,
  filter p (flat_map f l) = flat_map (fun a => filter p (f a)) l.
Proof. induction l; simpl; auto. rewrite filter_app. congruence. Qed.
Lemma filter_map_length : forall (A B : Type) (p : B -> bool) (f : A -> B) l,
  length (filter p (map f l)) = length (filter (fun a => p (f a)) l).
Proof. induction l; simpl; auto. destruct (p (f a)); simpl; auto. Qed.
Lemma filter_ext_local : forall (A : Type) (p q : A -> bool) l, (forall a, In a l -> p a = q a) -> filter p l = filter q l.
Proof. induction l; simpl; intros H; auto. rewrite (H a) by auto. destruct (q a); rewrite IHl; auto. Qed.

Lemma count_product : forall k n b, b < k ->
  length (filter (fun p => fold_right Nat.add 0 p <=? b) (product_range k n)) = count n b.
Proof.
  intros k. induction n as [|n IH]; intros b Hb; simpl; [reflexivity|].
  rewrite filter_flat_map, length_flat_map.
  assert (G : forall e, length (filter (fun p => fold_right Nat.add 0 p <=? b) (map (cons e) (product_range k n))) =
                    if e <=? b then count n (b - e) else 0).
  { intros e. rewrite filter_map_length. simpl. destruct (Nat.leb_spec e b).
    - rewrite <- IH by lia. f_equal. apply filter_ext_local. intros a _. apply eq_true_iff_eq. rewrite !Nat.leb_le. lia.
    - rewrite (filter_ext_local _ _ (fun _ => false)); [clear; induction (product_range k n); auto|].
      intros a _. apply Nat.leb_gt. lia. }
  rewrite (map_ext _ _ G).
  replace k with (S b + (k - S b)) by lia. rewrite seq_app, map_app, fold_right_app.
  assert (Z : fold_right Nat.add 0 (map (fun e => if e <=? b then count n (b - e) else 0) (seq (0 + S b) (k - S b))) = 0).
  { assert (Z : forall l, (forall e, In e l -> b < e) -> fold_right Nat.add 0 (map (fun e => if e <=? b then count n (b - e) else 0) l) = 0).
    { induction l as [|a l IHl]; simpl; intros H; auto. rewrite IHl by auto.
      destruct (Nat.leb_spec a b); auto. specialize (H a (or_introl eq_refl)). lia. }
    apply Z. intros e He. apply in_seq in He. lia. }
  rewrite Z. transitivity (fold_right Nat.add 0 (map (fun e => count n (b - e)) (seq 0 (S b)))); [|reflexivity].
  f_equal. apply map_ext_in. intros e He. apply in_seq in He. destruct (Nat.leb_spec e b); [auto|lia].
Qed.

Lemma count_S : forall n b, count (S n) b = fold_right Nat.add 0 (map (fun e => count n (b - e)) (seq 0 (S b))).
Proof. reflexivity. Qed.
Lemma pascal : forall n b, count (S n) (S b) = count n (S b) + count (S n) b.
Proof.
  intros n b. rewrite !count_S. change (seq 0 (S (S b))) with (0 :: seq 1 (S b)).
  rewrite <- (seq_shift (S b) 0). rewrite map_cons, map_map. simpl fold_right at 1.
  change (S b - 0) with (S b). f_equal.
Qed.

Lemma count_zero : forall n, count n 0 = 1.
Proof. induction n; simpl; auto. rewrite IHn. auto. Qed.

Lemma count_fact : forall n b, count n b * (fact n * fact b) = fact (n + b).
Proof.
  induction n as [|n IHn]; intros b.
  - simpl. lia.
  - induction b as [|b IHb].
    + rewrite count_zero, Nat.add_0_r. simpl. lia.
    + rewrite pascal. specialize (IHn (S b)).
      replace (S n + S b) with (S (S n + b)) by lia.
      change (fact (S (S n + b))) with (S (S n + b) * fact (S n + b)).
      replace (S n + b) with (n + S b) in * by lia.
      replace (S (n + S b)) with (S n + S b) by lia.
      rewrite Nat.mul_add_distr_r with (n := S n). rewrite <- IHn at 1. rewrite <- IHb.
      change (fact (S n)) with (S n * fact n). change (fact (S b)) with (S b * fact b). ring.
Qed.

Lemma basis_count : forall n order,
  length (repeat 0 n :: exponents n order) * (fact n * fact order) = fact (n + order) /\
  n_pol_parameters n order = length (repeat 0 n :: exponents n order).
Proof.
  intros. rewrite exponents_all, count_product by lia. split; [apply count_fact|].
  unfold n_pol_parameters. rewrite <- count_fact. apply Nat.div_mul.
  pose proof (lt_O_fact n). pose proof (lt_O_fact order). nia.
Qed.

(** ** Polynomials *)

Lemma table_hermite : forall d x, d <= 9 -> exists h, nth_error hermite_table d = Some h /\ (h x == hermite d x)%Q.
Proof.
  intros d x H. do 10 (destruct d as [|d]; [eexists; split; [reflexivity|]; unfold hermite; simpl; ring|]). lia.
Qed.

Lemma product_value : forall e x, length x = length e -> Forall (fun d => d <= 9) e ->
  exists v, basis_product e x = Ok v /\ (v == hermite_product e x)%Q.
Proof.
  induction e as [|d e IH]; intros [|y x] L F; try discriminate; [exists 1%Q; split; reflexivity|].
  inversion F; subst. destruct (table_hermite d y H1) as [h [Hh E]].
  destruct (IH x) as [v [Hv Ev]]; [simpl in L; congruence|auto|].
  simpl. rewrite Hh, Hv. simpl. eexists. split; [reflexivity|]. unfold hermite_product in *. simpl. rewrite E, Ev. reflexivity.
Qed.

Lemma fill_value : forall es x, Forall (fun e => length x = length e /\ Forall (fun d => d <= 9) e) es ->
  exists psi, fill (repeat 1%Q (length es)) es x = Ok psi /\
    Forall2 (fun e v => v == hermite_product e x)%Q es psi.
Proof.
  induction es as [|e es IH]; intros x F; simpl; [exists []; auto|].
  inversion F; subst. destruct H1 as [L B]. destruct (product_value e x L B) as [v [Hv E]]. destruct (IH x H2) as [psi [Hp P]].
  rewrite Hv. simpl. rewrite Hp. simpl. eexists. split; [reflexivity|]. constructor; auto. rewrite E. ring.
Qed.

Lemma zeros_product : forall n x, (hermite_product (repeat 0%nat n) x == 1)%Q.
Proof.
  induction n as [|n IH]; intros [|y x]; try reflexivity. unfold hermite_product in *. simpl. rewrite IH. reflexivity.
Qed.

Lemma basis_value : forall n order x, order <= 9 -> length x = n ->
  exists psi, basis n order x = Ok psi /\
    Forall2 (fun e v => v == hermite_product e x)%Q (repeat 0 n :: exponents n order) psi.
Proof.
  intros n order x H L. destruct (basis_count n order) as [_ C]. unfold basis. rewrite C. simpl repeat.
  destruct (fill_value (exponents n order) x) as [psi [Hp P]].
  - apply Forall_forall. intros e He. assert (I : In e (repeat 0 n :: exponents n order)) by (right; auto).
    apply exponents_in in I. destruct I as [I S]. split; [congruence|]. apply Forall_forall. intros d Hd.
    pose proof (sum_bounds _ _ _ S Hd). lia.
  - rewrite Hp. simpl. eexists. split; [reflexivity|]. constructor; auto. symmetry. apply zeros_product.
Qed.

Lemma fill_some_fails : forall es psi x e, In e es -> length psi = length es ->
  (forall a, In a es -> length a = length x) -> basis_product e x = Raise IndexError ->
  fill psi es x = Raise IndexError.
Proof.
  induction es as [|a es IH]; intros psi x e I L F H; [contradiction|]. destruct psi as [|p psi]; [discriminate|].
  simpl. destruct I as [->|I].
  - rewrite H. reflexivity.
  - assert (A : (exists v, basis_product a x = Ok v) \/ basis_product a x = Raise IndexError).
    { clear. revert x. induction a as [|d a IHa]; intros [|y x]; simpl; eauto. destruct (nth_error hermite_table d); auto.
      destruct (IHa x) as [[v ->]| ->]; simpl; eauto. }
    destruct A as [[v ->]| ->]; simpl; auto. rewrite (IH psi x e); auto. intros; apply F; right; auto.
Qed.

Lemma product_missing : forall e x d, In d e -> 11 <= d -> length e = length x -> basis_product e x = Raise IndexError.
Proof.
  induction e as [|a e IH]; intros [|y x] d I H L; simpl in *; try contradiction; try discriminate.
  destruct I as [->|I].
  - assert (N : nth_error hermite_table d = None) by (apply nth_error_None; simpl; lia). rewrite N. reflexivity.
  - destruct (nth_error hermite_table a); auto. rewrite (IH x d); auto.
Qed.

Lemma high_order : forall n order x, 10 < order -> 0 < n -> length x = n -> basis n order x = Raise IndexError.
Proof.
  intros n order x H N L. destruct (basis_count n order) as [_ C]. unfold basis. rewrite C. simpl repeat.
  set (e := 11 :: repeat 0 (n - 1)).
  assert (I : In e (repeat 0 n :: exponents n order)).
  { apply exponents_in. unfold e, degree_sum. simpl. rewrite sum_zeros, repeat_length. lia. }
  destruct I as [I|I]; [unfold e in I; destruct n; [lia|discriminate]|].
  rewrite (fill_some_fails _ _ x e); auto.
  - rewrite repeat_length. reflexivity.
  - intros a Ha. assert (J : In a (repeat 0 n :: exponents n order)) by (right; auto). apply exponents_in in J. lia.
  - apply (product_missing e x 11); [left; auto|lia|]. unfold e. simpl. rewrite repeat_length. lia.
Qed.

Lemma order_ten : exists psi v, basis 1 10 [1%Q] = Ok psi /\ nth_error psi 10 = Some v /\
  nth_error (repeat 0 1 :: exponents 1 10) 10 = Some [10] /\ ~ (v == hermite_product [10%nat] [1])%Q.
Proof.
  assert (V : exists psi, basis 1 10 [1%Q] = Ok psi /\ exists v, nth_error psi 10 = Some v /\ (v == 1226 # 1)%Q).
  { eexists. split; [vm_compute; reflexivity|]. eexists. split; [reflexivity|]. reflexivity. }
  destruct V as [psi [B [v [N E]]]]. exists psi, v. split; [exact B|]. split; [exact N|]. split; [vm_compute; reflexivity|].
  rewrite E. vm_compute. discriminate.
Qed.

(** ** The leaky tank *)

Lemma eye_entry : forall n i j, i < n -> j < n -> entry (eye n) i j = if i =? j then 1%Q else 0%Q.
Proof.
  intros n i j Hi Hj. unfold entry, eye.
  rewrite (nth_indep _ [] ((fun i => map (fun j => if i =? j then 1%Q else 0%Q) (seq 0 n)) 0)) by (rewrite map_length, seq_length; auto).
  rewrite (map_nth (fun i => map (fun j => if i =? j then 1%Q else 0%Q) (seq 0 n))), seq_nth by auto. simpl.
  rewrite (nth_indep _ 0%Q ((fun j => if i =? j then 1%Q else 0%Q) 0)) by (rewrite map_length, seq_length; auto).
  rewrite (map_nth (fun j => if i =? j then 1%Q else 0%Q)), seq_nth by auto. reflexivity.
Qed.
Lemma eye_square : forall n, square n (eye n).
Proof.
  intros n. unfold eye. split; [rewrite map_length, seq_length; auto|]. apply Forall_forall. intros r Hr.
  apply in_map_iff in Hr. destruct Hr as [i [<- _]]. rewrite map_length, seq_length. auto.
Qed.
Lemma eye_identity : forall n, is_identity n (eye n).
Proof. intros n. split; [apply eye_square|]. intros i j Hi Hj. rewrite eye_entry by auto. reflexivity. Qed.
Lemma eye_factor : forall n, factor_of n (eye n) (eye n).
Proof.
  intros n. split; [apply eye_square|]. intros i j Hi Hj.
  rewrite (qsum_ext n _ (fun k => (if k =? i then 1 else 0) * entry (eye n) k j)%Q).
  - rewrite (qsum_single n i (fun k => entry (eye n) k j)) by auto. reflexivity.
  - intros k Hk. rewrite (eye_entry n k i) by auto. reflexivity.
Qed.
Lemma leaky_factor_ok : factor_of 4 leaky_factor leaky_cov.
Proof.
  split; [split; [reflexivity|repeat constructor]|].
  intros i j Hi Hj. do 4 (destruct i as [|i]; [do 4 (destruct j as [|j]; [vm_compute; reflexivity|]); lia|]). lia.
Qed.

Lemma leaky_chol_ok : (forall C R, leaky_chol C = Ok R -> factor_of (length C) R C) /\
  (forall k R, leaky_chol (eye k) = Ok R -> is_identity k R).
Proof.
  unfold leaky_chol. split.
  - intros C R. destruct (list_eq_dec _ C leaky_cov) as [->|_].
    + intros H. injection H as <-. exact leaky_factor_ok.
    + destruct (list_eq_dec _ C (eye (length C))) as [E|_]; [|discriminate]. intros H. injection H as <-.
      rewrite E at 3. apply eye_factor.
  - intros k R. destruct (list_eq_dec _ (eye k) leaky_cov) as [E|_].
    + exfalso. assert (L : k = 4) by (apply (f_equal (@length _)) in E; unfold eye in E; rewrite map_length, seq_length in E; exact E).
      subst k. discriminate.
    + destruct (list_eq_dec _ (eye k) (eye (length (eye k)))) as [E|_]; [|discriminate]. intros H. injection H as <-.
      replace (length (eye k)) with k by (unfold eye; rewrite map_length, seq_length; reflexivity). apply eye_identity.
Qed.

Lemma leaky_sampled : exists s, leaky [] = Ok s /\ n_uncertain s = 4 /\
  describes (parameter_groups leaky_ops) (s_p_unc s) (s_p_mean s) (s_p_cov s) (s_p_dist s) /\
  describes (initial_groups leaky_ops) (s_ic s) (s_ic_mean s) (s_ic_cov s) (s_ic_dist s) /\
  Forall (fun z => length z = 4) (leaky_normal 4 2) /\
  sample_parameters leaky_normal leaky_chol (new_converter s 2 (Some 2)) = Ok [[3; 9; 18; 21]; [3; 9; 18; 21]]%Q /\
  v_samples (new_converter s 2 None) = 15.
Proof.
  assert (X : exists o, leaky_problem = Ok o) by (eexists; vm_compute; reflexivity). destruct X as [o Ho].
  pose proof (stochastic_history (fun _ _ => false) o leaky_ops) as (P & I & _).
  unfold leaky. rewrite Ho. cbn [bind]. rewrite app_nil_r. eexists. split; [reflexivity|].
  split; [vm_compute; reflexivity|]. split; [exact P|]. split; [exact I|].
  split; [repeat constructor|]. split; vm_compute; reflexivity.
Qed.

Lemma hermite_recurrence : forall n x, (hermite 0 x == 1)%Q /\ (hermite 1 x == x)%Q /\
    (hermite (S (S n)) x == x * hermite (S n) x - inject_Z (Z.of_nat (S n)) * hermite n x)%Q.
Proof.
  intros n x. split; [reflexivity|]. split; [reflexivity|]. unfold hermite. simpl.
  destruct (hermite_pair n x) as [a b]. simpl. reflexivity.
Qed.

Lemma samples_refused : forall normal chol v,
    (n_uncertain (v_socp v) = 0 -> sample_parameters normal chol v = Raise ValueError) /\
    (n_uncertain (v_socp v) <> 0 -> Exists (fun d => d <> "normal"%string) (s_p_dist (v_socp v) ++ s_ic_dist (v_socp v)) ->
     sample_parameters normal chol v = Raise NotImplementedErr).
Proof.
  intros normal chol v. unfold sample_parameters, n_uncertain. set (s := v_socp v). split.
  - intros H. destruct (n_p_unc s); [|discriminate]. destruct (n_uncertain_initial_condition s); [|discriminate]. reflexivity.
  - intros H E.
    assert (F : forallb (String.eqb "normal") (s_p_dist s ++ s_ic_dist s) = false).
    { apply Exists_exists in E. destruct E as [d [I N]]. destruct (forallb _ _) eqn:F; auto.
      rewrite forallb_forall in F. apply F in I. apply String.eqb_eq in I. congruence. }
    rewrite F. destruct (n_p_unc s); destruct (n_uncertain_initial_condition s); auto. contradiction.
Qed.

(** Proofs about the statistics of polynomial chaos expansions. *)
From Coq Require Import QArith Qpower Lqa Setoid Morphisms.
From Verif Require Import Base BaseProofs UtilModel StoModel StoSpec StoBasisProofs PcsModel PcsSpec.
Local Open Scope list_scope.
Local Open Scope nat_scope.

(** ** Hermite polynomials applied to sequences: the powers of x are replaced by numbers *)
Definition qn (n : nat) : Q := inject_Z (Z.of_nat n).
Lemma qn_S n : (qn (S n) == qn n + 1)%Q.
Proof. unfold qn. rewrite Nat2Z.inj_succ, <- Z.add_1_r, inject_Z_plus. reflexivity. Qed.

Fixpoint apply_pair (n : nat) (f : nat -> Q) : Q * Q :=
  match n with
  | 0 => (f 0, f 1)
  | S n' => (snd (apply_pair n' f), (snd (apply_pair n' (fun k => f (S k))) - qn (S n') * fst (apply_pair n' f))%Q)
  end.
Definition apply (n : nat) (f : nat -> Q) : Q := fst (apply_pair n f).

Lemma apply_pair_snd n f : snd (apply_pair n f) = apply (S n) f.
Proof. reflexivity. Qed.
Lemma apply_0 f : apply 0 f = f 0. Proof. reflexivity. Qed.
Lemma apply_1 f : apply 1 f = f 1. Proof. reflexivity. Qed.
Lemma apply_SS n f : apply (S (S n)) f = (apply (S n) (fun k => f (S k)) - qn (S n) * apply n f)%Q.
Proof. unfold apply at 1. cbn [apply_pair fst snd]. rewrite !apply_pair_snd. reflexivity. Qed.
(** The same with a predecessor. *)
Lemma apply_S n f : (apply (S n) f == apply n (fun k => f (S k)) - qn n * apply (pred n) f)%Q.
Proof.
  destruct n as [|n].
  - rewrite apply_1, !apply_0. unfold qn. cbn. ring.
  - rewrite apply_SS. reflexivity.
Qed.

(** Induction over two predecessors. *)
Lemma two_steps (P : nat -> Prop) : P 0 -> P 1 -> (forall n, P n -> P (S n) -> P (S (S n))) -> forall n, P n.
Proof. intros H0 H1 H n. enough (P n /\ P (S n)) by tauto. induction n as [|n [IH1 IH2]]; auto. Qed.

Lemma apply_ext n : forall f g, (forall k, k <= n -> (f k == g k)%Q) -> (apply n f == apply n g)%Q.
Proof.
  induction n as [| |n IH1 IH2] using two_steps; intros f g H.
  - rewrite !apply_0. apply H. lia.
  - rewrite !apply_1. apply H. lia.
  - rewrite !apply_SS. rewrite (IH1 f g) by (intros k Hk; apply H; lia).
    rewrite (IH2 (fun k => f (S k)) (fun k => g (S k))) by (intros k Hk; apply H; lia). reflexivity.
Qed.
Lemma apply_plus n : forall f g, (apply n (fun k => f k + g k) == apply n f + apply n g)%Q.
Proof.
  induction n as [| |n IH1 IH2] using two_steps; intros f g; [reflexivity|reflexivity|].
  rewrite !apply_SS, IH1, (IH2 (fun k => f (S k)) (fun k => g (S k))). ring.
Qed.
Lemma apply_scale n : forall c f, (apply n (fun k => c * f k) == c * apply n f)%Q.
Proof.
  induction n as [| |n IH1 IH2] using two_steps; intros c f; [reflexivity|reflexivity|].
  rewrite !apply_SS, IH1, (IH2 c (fun k => f (S k))). ring.
Qed.

Lemma power_S x k : (x ^ Z.of_nat (S k) == x * x ^ Z.of_nat k)%Q.
Proof.
  destruct (Qeq_dec x 0) as [E|E].
  - rewrite E. rewrite Qmult_0_l. apply Qpower_0. lia.
  - rewrite Nat2Z.inj_succ, <- Z.add_1_l, Qpower_plus by exact E. reflexivity.
Qed.
Lemma apply_hermite n x : (apply n (fun k => x ^ Z.of_nat k) == hermite n x)%Q.
Proof.
  induction n as [| |n IH1 IH2] using two_steps.
  - reflexivity.
  - rewrite apply_1. cbn. reflexivity.
  - rewrite apply_SS, IH1. destruct (hermite_recurrence n x) as (_ & _ & ->). fold (qn (S n)).
    rewrite (apply_ext _ _ (fun k => x * x ^ Z.of_nat k)%Q) by (intros k _; apply power_S).
    rewrite apply_scale, IH2. ring.
Qed.

(** The derivative of a Hermite polynomial. *)
Lemma apply_derivative n : forall f, (apply n (fun k => qn k * f (pred k)) == qn n * apply (pred n) f)%Q.
Proof.
  induction n as [| |n IH1 IH2] using two_steps; intros f.
  - rewrite !apply_0. reflexivity.
  - rewrite apply_1. reflexivity.
  - rewrite apply_SS, IH1. cbn [pred].
    rewrite (apply_ext (S n) _ (fun k => qn k * f (S (pred k)) + f k)%Q).
    + rewrite apply_plus. pose proof (IH2 (fun j => f (S j))) as E2. cbn beta in E2. rewrite E2. cbn [pred].
      pose proof (apply_S n f) as E. rewrite (qn_S (S n)), E. ring.
    + intros k _. cbn [pred]. rewrite qn_S. destruct k as [|k]; [unfold qn; cbn; ring|]. cbn [pred]. ring.
Qed.

Lemma moment_S k : (moment (S k) == qn k * moment (pred k))%Q.
Proof. destruct k as [|k]; [reflexivity|]. reflexivity. Qed.

Definition pairing (a b : nat) : Q := apply a (fun i => apply b (fun k => moment (i + k)%nat)).
Lemma pairing_step a b : (pairing (S a) b == qn b * pairing a (pred b))%Q.
Proof.
  unfold pairing. rewrite apply_S.
  rewrite (apply_ext a _ (fun i => qn i * apply b (fun k => moment (pred i + k)) + qn b * apply (pred b) (fun k => moment (i + k)%nat))%Q).
  - rewrite apply_plus, apply_scale.
    pose proof (apply_derivative a (fun i => apply b (fun k => moment (i + k)%nat))) as E. cbn beta in E. rewrite E. ring.
  - intros i _. cbn beta.
    rewrite (apply_ext b _ (fun k => qn i * moment (pred i + k) + qn k * moment (i + pred k))%Q).
    + rewrite apply_plus, apply_scale. pose proof (apply_derivative b (fun k => moment (i + k)%nat)) as E. cbn beta in E. rewrite E. reflexivity.
    + assert (Z0 : qn 0 = 0%Q) by reflexivity. intros k _. cbn beta. cbn [Nat.add]. rewrite moment_S. destruct i as [|i].
      * cbn [Nat.add pred]. rewrite Z0. ring.
      * cbn [Nat.add pred]. destruct k as [|k].
        -- rewrite !Nat.add_0_r, Z0. cbn [pred]. ring.
        -- cbn [pred]. replace (i + S k) with (S (i + k)) by lia.
           rewrite !qn_S. unfold qn. rewrite Nat2Z.inj_add, inject_Z_plus. ring.
Qed.
Lemma pairing_first b : (pairing 0 b == if b =? 0 then 1 else 0)%Q.
Proof.
  unfold pairing. rewrite apply_0. cbn [Nat.add]. destruct b as [|b]; [reflexivity|]. cbn [Nat.eqb].
  change (apply (S b) moment == 0)%Q. rewrite apply_S, (apply_ext b _ (fun k => qn k * moment (pred k))%Q) by (intros k _; apply moment_S).
  rewrite (apply_derivative b moment). ring.
Qed.
Lemma pairing_value a : forall b, (pairing a b == if a =? b then qn (fact a) else 0)%Q.
Proof.
  induction a as [|a IH]; intros b.
  - rewrite pairing_first. destruct b; reflexivity.
  - rewrite pairing_step, IH. destruct b as [|b]; [reflexivity|]. cbn [pred]. cbn [Nat.eqb].
    destruct (a =? b) eqn:E; [|ring]. apply Nat.eqb_eq in E. subst b.
    change (fact (S a)) with (S a * fact a). unfold qn. rewrite Nat2Z.inj_mul, inject_Z_mult. reflexivity.
Qed.

(** ** Means are linear *)
Lemma mean_ext D f g : (forall w x, In (w, x) D -> (f x == g x)%Q) -> (mean_over D f == mean_over D g)%Q.
Proof.
  induction D as [|[w x] D IH]; intros H; [reflexivity|]. unfold mean_over in *. cbn [fold_right fst snd].
  rewrite (H w x) by (left; reflexivity). rewrite IH; [reflexivity|]. intros w' x' I. apply (H w'). right. exact I.
Qed.
Lemma mean_plus D f g : (mean_over D (fun x => f x + g x) == mean_over D f + mean_over D g)%Q.
Proof. induction D as [|[w x] D IH]; [reflexivity|]. unfold mean_over in *. cbn [fold_right fst snd]. rewrite IH. ring. Qed.
Lemma mean_scale D c f : (mean_over D (fun x => c * f x) == c * mean_over D f)%Q.
Proof. induction D as [|[w x] D IH]; [cbn; ring|]. unfold mean_over in *. cbn [fold_right fst snd]. rewrite IH. ring. Qed.
Lemma mean_minus D f g : (mean_over D (fun x => f x - g x) == mean_over D f - mean_over D g)%Q.
Proof.
  rewrite (mean_ext D _ (fun x => f x + (-1) * g x)%Q) by (intros; ring). rewrite mean_plus, mean_scale. ring.
Qed.
Lemma mean_apply D n : forall (g : nat -> list Q -> Q),
  (mean_over D (fun x => apply n (fun k => g k x)) == apply n (fun k => mean_over D (g k)))%Q.
Proof.
  induction n as [| |n IH1 IH2] using two_steps; intros g.
  - rewrite apply_0. apply mean_ext. intros. rewrite apply_0. reflexivity.
  - rewrite apply_1. apply mean_ext. intros. rewrite apply_1. reflexivity.
  - rewrite apply_SS, <- IH1, <- (IH2 (fun k => g (S k))), <- mean_scale, <- mean_minus. apply mean_ext. intros.
    rewrite apply_SS. reflexivity.
Qed.
Lemma mean_sum {A : Type} D (l : list A) (c : A -> Q) (f : A -> list Q -> Q) :
  (mean_over D (fun x => fold_right Qplus 0 (map (fun a => c a * f a x) l)) ==
   fold_right Qplus 0 (map (fun a => c a * mean_over D (f a)) l))%Q.
Proof.
  induction l as [|a l IH]; cbn [map fold_right].
  - induction D as [|[w x] D IHD]; [reflexivity|]. unfold mean_over in *. cbn [fold_right fst snd]. rewrite IHD. ring.
  - rewrite mean_plus, mean_scale, IH. reflexivity.
Qed.

(** ** Products over the uncertain quantities *)
Fixpoint prodf (fs : list (Q -> Q)) (x : list Q) : Q :=
  match fs, x with
  | f :: fs', v :: x' => (f v * prodf fs' x')%Q
  | _, _ => 1%Q
  end.
Lemma prodf_app fs : forall gs x, length fs <= length x ->
  (prodf (fs ++ gs) x == prodf fs x * prodf gs (skipn (length fs) x))%Q.
Proof.
  induction fs as [|f fs IH]; intros gs x L; cbn [app prodf length skipn].
  - destruct x; ring.
  - destruct x as [|v x]; cbn [length] in L; [lia|]. rewrite IH by lia. cbn [skipn]. ring.
Qed.
Lemma prodf_ext fs : forall gs x, Forall2 (fun f g => forall v, (f v == g v)%Q) fs gs -> (prodf fs x == prodf gs x)%Q.
Proof.
  induction fs as [|f fs IH]; intros gs x H; inversion H as [|? g ? gs' Hfg Hr]; subst; [reflexivity|].
  destruct x as [|v x]; [reflexivity|]. cbn [prodf]. rewrite (Hfg v), (IH _ _ Hr). reflexivity.
Qed.

Definition powers (e : list nat) : list (Q -> Q) := map (fun k v => (v ^ Z.of_nat k)%Q) e.
Definition herm2 (ab : list (nat * nat)) : list (Q -> Q) := map (fun p v => (hermite (fst p) v * hermite (snd p) v)%Q) ab.
Lemma prodf_powers e x : prodf (powers e) x = power_product e x.
Proof.
  unfold power_product, powers. revert x. induction e as [|k e IH]; intros [|v x]; try reflexivity.
  cbn [map prodf combine fold_right fst snd]. rewrite IH. reflexivity.
Qed.
Lemma prodf_herm2 a b x : length a = length b ->
  (prodf (herm2 (combine a b)) x == hermite_product a x * hermite_product b x)%Q.
Proof.
  unfold hermite_product, herm2. revert b x. induction a as [|k a IH]; intros [|l b] [|v x] L; try discriminate; try (cbn; ring).
  cbn [map prodf combine fold_right fst snd]. rewrite IH by (cbn in L; lia). ring.
Qed.

Lemma hermite_both a b v : (hermite a v * hermite b v == apply a (fun i => apply b (fun k => v ^ Z.of_nat (i + k))))%Q.
Proof.
  rewrite (apply_ext a _ (fun i => hermite b v * v ^ Z.of_nat i)%Q).
  - rewrite apply_scale, apply_hermite. ring.
  - intros i _. rewrite (apply_ext b _ (fun k => v ^ Z.of_nat i * v ^ Z.of_nat k)%Q).
    + rewrite apply_scale, apply_hermite. ring.
    + intros k _. induction i as [|i IHi]; [cbn; ring|]. change (S i + k) with (S (i + k)). rewrite !power_S, IHi. ring.
Qed.

Definition delta (ab : list (nat * nat)) : Q := product (map (fun p => if fst p =? snd p then qn (fact (fst p)) else 0%Q) ab).
Definition sum2 (ab : list (nat * nat)) : nat := fold_right (fun p acc => fst p + snd p + acc) 0 ab.

Lemma product_app l l' : (product (l ++ l') == product l * product l')%Q.
Proof. unfold product. induction l as [|a l IH]; cbn [app fold_right]; [ring|]. rewrite IH. ring. Qed.
Lemma degree_sum_app e e' : degree_sum (e ++ e') = degree_sum e + degree_sum e'.
Proof. unfold degree_sum. induction e as [|k e IH]; cbn [app fold_right]; [reflexivity|]. rewrite IH. lia. Qed.

Lemma mean_products n d D : normal_to n d D -> forall ab e, length e + length ab = n -> degree_sum e + sum2 ab <= d ->
  (mean_over D (prodf (powers e ++ herm2 ab)) == product (map moment e) * delta ab)%Q.
Proof.
  intros [HD HM]. induction ab as [|[a b] ab IH]; intros e L Hd.
  - cbn [herm2 map length] in *. rewrite app_nil_r. cbn [sum2 fold_right] in Hd.
    rewrite (mean_ext D _ (power_product e)) by (intros; rewrite prodf_powers; reflexivity).
    rewrite HM by lia. unfold delta, product. cbn [map fold_right]. ring.
  - cbn [length sum2 fold_right fst snd] in L, Hd. fold (sum2 ab) in Hd.
    transitivity (mean_over D (fun x => apply a (fun i => apply b (fun k => prodf (powers (e ++ [(i + k)%nat]) ++ herm2 ab) x))))%Q.
    { apply mean_ext. intros w x I. specialize (HD w x I).
      assert (Hs : length (powers e) <= length x) by (unfold powers; rewrite map_length; lia).
      rewrite prodf_app by exact Hs.
      assert (Ev : exists v r, skipn (length (powers e)) x = v :: r).
      { destruct (skipn (length (powers e)) x) as [|v r] eqn:E; [|exists v, r; reflexivity].
        apply (f_equal (@length Q)) in E. rewrite skipn_length in E. unfold powers in E. rewrite map_length in E. cbn in E. lia. }
      destruct Ev as (v & r & Ev). rewrite Ev. cbn [herm2 map prodf fst snd]. fold (herm2 ab). rewrite hermite_both.
      set (c := prodf (powers e) x). set (q := prodf (herm2 ab) r).
      transitivity (apply a (fun i => (c * q) * apply b (fun k => v ^ Z.of_nat (i + k))))%Q; [rewrite apply_scale; ring|].
      apply apply_ext. intros i _. rewrite <- apply_scale. apply apply_ext. intros k _.
      unfold powers. rewrite map_app. cbn [map]. rewrite <- app_assoc. cbn [app]. fold (powers e).
      rewrite prodf_app by exact Hs. rewrite Ev. cbn [prodf]. fold c q. ring. }
    rewrite (mean_apply D a (fun i x => apply b (fun k => prodf (powers (e ++ [(i + k)%nat]) ++ herm2 ab) x))).
    transitivity (apply a (fun i => product (map moment e) * delta ab * apply b (fun k => moment (i + k)%nat)))%Q.
    { apply apply_ext. intros i Hi. rewrite (mean_apply D b (fun k x => prodf (powers (e ++ [(i + k)%nat]) ++ herm2 ab) x)).
      rewrite <- apply_scale. apply apply_ext. intros k Hk. rewrite IH.
      - rewrite map_app. rewrite product_app. unfold product at 2. cbn [map fold_right]. ring.
      - rewrite app_length. cbn [length]. lia.
      - rewrite degree_sum_app. unfold degree_sum at 2. cbn [fold_right]. lia. }
    rewrite apply_scale. fold (pairing a b). rewrite pairing_value.
    change (delta ((a, b) :: ab)) with ((if a =? b then qn (fact a) else 0) * delta ab)%Q. destruct (a =? b); ring.
Qed.

(** ** Orthogonality *)
Definition same (e e' : list nat) : bool := if list_eq_dec Nat.eq_dec e e' then true else false.
Lemma same_refl e : same e e = true.
Proof. unfold same. destruct (list_eq_dec Nat.eq_dec e e); congruence. Qed.
Lemma same_other e e' : e <> e' -> same e e' = false.
Proof. unfold same. destruct (list_eq_dec Nat.eq_dec e e'); congruence. Qed.

Lemma delta_value e : forall e', length e = length e' -> (delta (combine e e') == if same e e' then factorials e else 0)%Q.
Proof.
  induction e as [|k e IH]; intros [|k' e'] L; try discriminate; [reflexivity|].
  change (delta (combine (k :: e) (k' :: e'))) with ((if k =? k' then qn (fact k) else 0) * delta (combine e e'))%Q.
  rewrite IH by (cbn in L; lia). change (factorials (k :: e)) with (qn (fact k) * factorials e)%Q.
  destruct (Nat.eqb_spec k k') as [->|N].
  - destruct (list_eq_dec Nat.eq_dec e e') as [->|N]; [rewrite !same_refl; reflexivity|].
    rewrite (same_other e e' N), (same_other (k' :: e) (k' :: e')) by congruence. ring.
  - rewrite (same_other (k :: e) (k' :: e')) by congruence. ring.
Qed.
Lemma sum2_combine e : forall e', length e = length e' -> sum2 (combine e e') = degree_sum e + degree_sum e'.
Proof.
  induction e as [|k e IH]; intros [|k' e'] L; try discriminate; [reflexivity|].
  cbn [combine sum2 fold_right fst snd]. fold (sum2 (combine e e')). rewrite IH by (cbn in L; lia).
  unfold degree_sum. cbn [fold_right]. lia.
Qed.
Lemma orthogonal n order D e e' : normal_to n (2 * order) D -> length e = n -> length e' = n ->
  degree_sum e <= order -> degree_sum e' <= order ->
  (mean_over D (fun x => hermite_product e x * hermite_product e' x) == if same e e' then factorials e else 0)%Q.
Proof.
  intros N L L' S S'. rewrite <- delta_value by congruence.
  pose proof (mean_products n (2 * order) D N (combine e e') []) as M. cbn [length powers map app] in M.
  rewrite combine_length, sum2_combine in M by congruence.
  transitivity (mean_over D (prodf (herm2 (combine e e')))).
  - apply mean_ext. intros. rewrite prodf_herm2 by congruence. reflexivity.
  - change (prodf (herm2 (combine e e'))) with (prodf ([] ++ herm2 (combine e e'))). rewrite M.
    + unfold product. cbn [fold_right]. ring.
    + lia.
    + unfold degree_sum at 1. cbn [fold_right]. lia.
Qed.

(** ** Sums over the basis *)
Definition qsum (l : list Q) : Q := fold_right Qplus 0%Q l.
Lemma qsum_cons q l : qsum (q :: l) = (q + qsum l)%Q.
Proof. reflexivity. Qed.
Lemma qsum_ext {A : Type} (f g : A -> Q) l : (forall a, In a l -> (f a == g a)%Q) -> (qsum (map f l) == qsum (map g l))%Q.
Proof.
  unfold qsum. induction l as [|a l IH]; intros H; [reflexivity|]. cbn [map fold_right].
  rewrite (H a) by (left; reflexivity). rewrite IH; [reflexivity|]. intros b I. apply H. right. exact I.
Qed.
Lemma pick (N : list nat -> Q) e b : forall es bs, NoDup es -> length bs = length es -> In (b, e) (combine bs es) ->
  (qsum (map (fun p => fst p * (if same e (snd p) then N e else 0)) (combine bs es)) == b * N e)%Q.
Proof.
  induction es as [|e0 es IH]; intros [|b0 bs] ND L I; try (cbn in L; discriminate); [destruct I|].
  inversion ND as [|? ? Hn ND']; subst. unfold qsum in *. cbn [combine map fold_right fst snd] in *. destruct I as [E|I].
  - injection E as -> ->. rewrite same_refl.
    assert (Z : (fold_right Qplus 0 (map (fun p => fst p * (if same e (snd p) then N e else 0)) (combine bs es)) == 0)%Q).
    { clear -Hn. revert bs. induction es as [|e1 es IHe]; intros [|b1 bs]; try reflexivity.
      cbn [combine map fold_right fst snd]. rewrite IHe by (intros I; apply Hn; right; exact I).
      rewrite same_other by (intros ->; apply Hn; left; reflexivity). ring. }
    rewrite Z. ring.
  - rewrite IH by (try assumption; cbn in L; lia). rewrite same_other; [ring|]. intros ->. apply Hn. apply in_combine_r in I. exact I.
Qed.

Definition entry_sum (a : list Q) (es : list (list nat)) (x : list Q) : Q :=
  qsum (map (fun p => fst p * hermite_product (snd p) x) (combine a es))%Q.

Section Basis.
  Variables (n order : nat) (D : distribution) (es : list (list nat)).
  Hypothesis HN : normal_to n (2 * order) D.
  Hypothesis Hes : forall e, In e es -> length e = n /\ degree_sum e <= order.
  Hypothesis ND : NoDup es.

  Lemma mean_entry e b : In e es -> length b = length es ->
    (mean_over D (fun x => hermite_product e x * entry_sum b es x) ==
     qsum (map (fun p => fst p * (if same e (snd p) then factorials e else 0)) (combine b es)))%Q.
  Proof.
    intros I L. unfold entry_sum.
    transitivity (mean_over D (fun x => qsum (map (fun p => fst p * (hermite_product e x * hermite_product (snd p) x)) (combine b es))))%Q.
    { apply mean_ext. intros w x _. unfold qsum. induction (combine b es) as [|p l IH]; cbn [map fold_right]; [ring|]. rewrite <- IH. ring. }
    unfold qsum at 1. rewrite (mean_sum D (combine b es) (fun p => fst p) (fun p x => hermite_product e x * hermite_product (snd p) x)%Q).
    apply qsum_ext. intros [b0 e0] I0. cbn [fst snd]. apply in_combine_r in I0.
    destruct (Hes e I), (Hes e0 I0). rewrite (orthogonal n order D e e0) by assumption. reflexivity.
  Qed.

  Lemma mean_product a b : length a = length es -> length b = length es ->
    (mean_over D (fun x => entry_sum a es x * entry_sum b es x) ==
     qsum (map (fun p => fst (fst p) * snd (fst p) * factorials (snd p)) (combine (combine a b) es)))%Q.
  Proof.
    intros La Lb.
    transitivity (mean_over D (fun x => qsum (map (fun p => fst p * (hermite_product (snd p) x * entry_sum b es x)) (combine a es))))%Q.
    { apply mean_ext. intros w x _. unfold entry_sum at 1, qsum. induction (combine a es) as [|p l IH]; cbn [map fold_right]; [ring|]. rewrite <- IH. ring. }
    unfold qsum at 1. rewrite (mean_sum D (combine a es) (fun p => fst p) (fun p x => hermite_product (snd p) x * entry_sum b es x)%Q).
    fold (qsum (map (fun p => fst p * mean_over D (fun x => hermite_product (snd p) x * entry_sum b es x)) (combine a es))%Q).
    assert (G : forall es' a' b', length a' = length es' -> length b' = length es' ->
       (forall p, In p (combine b' es') -> In p (combine b es)) ->
       (qsum (map (fun p => fst p * mean_over D (fun x => hermite_product (snd p) x * entry_sum b es x)) (combine a' es')) ==
        qsum (map (fun p => fst (fst p) * snd (fst p) * factorials (snd p)) (combine (combine a' b') es')))%Q).
    { induction es' as [|e0 es' IH]; intros [|a0 a'] [|b0 b'] L1 L2 I; try (cbn in L1, L2; discriminate); [reflexivity|].
      cbn [combine map]. rewrite !qsum_cons. cbn [fst snd].
      rewrite (IH a' b') by (try (cbn in L1, L2; lia); intros p Hp; apply I; right; exact Hp).
      assert (I0 : In (b0, e0) (combine b es)) by (apply I; left; reflexivity).
      rewrite (mean_entry e0 b (in_combine_r _ _ _ _ I0) Lb). rewrite (pick factorials e0 b0 es b ND Lb I0). ring. }
    apply (G es a b La Lb). auto.
  Qed.
End Basis.

(** The constant. *)
Lemma constant_product n : forall x, (hermite_product (repeat 0%nat n) x == 1)%Q.
Proof.
  unfold hermite_product. induction n as [|n IH]; intros [|v x]; try reflexivity.
  cbn [repeat combine map fold_right fst snd]. rewrite IH. change (hermite 0 v) with 1%Q. ring.
Qed.
Lemma constant_factorials n : (factorials (repeat 0%nat n) == 1)%Q.
Proof.
  unfold factorials, product. induction n as [|n IH]; [reflexivity|]. cbn [repeat map fold_right]. rewrite IH. cbn. ring.
Qed.

(** ** The statistics of the code *)
Definition exps (n order : nat) : list (list nat) := repeat 0 n :: exponents n order.
Lemma exps_in n order e : In e (exps n order) -> length e = n /\ degree_sum e <= order.
Proof. intros I. apply exponents_in. exact I. Qed.
Lemma exps_length n order : length (exps n order) = n_pol_parameters n order.
Proof. symmetry. apply basis_count. Qed.

Lemma combination_entry es : forall a psi x, Forall2 (fun e v => (v == hermite_product e x)%Q) es psi ->
  (combination a psi == entry_sum a es x)%Q.
Proof.
  unfold combination, entry_sum, qsum. induction es as [|e es IH]; intros a psi x H; inversion H as [|? v ? psi' Hv Hr]; subst.
  - destruct a; reflexivity.
  - destruct a as [|q a]; [reflexivity|]. cbn [combine map fold_right fst snd]. rewrite (IH a psi' x Hr), Hv. reflexivity.
Qed.
Lemma expands_entry n order a f x : order <= 9 -> expands n order a f -> length x = n ->
  (f x == entry_sum a (exps n order) x)%Q.
Proof.
  intros O [La H] L. destruct (basis_value n order x O L) as (psi & E & HF). rewrite (H x psi L E). apply combination_entry. exact HF.
Qed.

Section Expansion.
  Variables (n order : nat) (D : distribution).
  Hypothesis Ho : order <= 9.
  Hypothesis HN : normal_to n (2 * order) D.
  Let es := exps n order.

  Lemma mean_one : (mean_over D (fun _ => 1) == 1)%Q.
  Proof.
    destruct HN as [HD HM]. rewrite <- (mean_ext D (power_product (repeat 0 n))).
    - rewrite HM; [|apply repeat_length|]. 
      + clear. unfold product. induction n as [|m IH]; [reflexivity|]. cbn [repeat map fold_right]. rewrite IH. reflexivity.
      + replace (degree_sum (repeat 0 n)) with 0; [lia|]. clear. unfold degree_sum. induction n; cbn [repeat fold_right]; auto.
    - intros w x _. unfold power_product. clear. revert x. induction n as [|m IH]; intros [|v x]; try reflexivity.
      cbn [repeat combine map fold_right fst snd]. rewrite IH. cbn. ring.
  Qed.

  Lemma mean_expansion a f : expands n order a f -> (mean_over D f == hd 0 a)%Q.
  Proof.
    intros He. assert (La : length a = length es) by (unfold es; rewrite exps_length; apply He).
    transitivity (mean_over D (fun x => hermite_product (repeat 0%nat n) x * entry_sum a es x))%Q.
    { apply mean_ext. intros w x I. rewrite constant_product, (expands_entry n order a f x Ho He (proj1 HN w x I)). fold es. ring. }
    rewrite (mean_entry n order D es HN (exps_in n order) (repeat 0 n) a (or_introl eq_refl) La).
    destruct a as [|a0 a]; [discriminate|].
    rewrite (pick factorials (repeat 0 n) a0 es (a0 :: a) (exponents_nodup n order) La (or_introl eq_refl)).
    rewrite constant_factorials. cbn [hd]. ring.
  Qed.

  Lemma covariance_expansion a b f g : expands n order a f -> expands n order b g ->
    (covariance D f g == qsum (map (fun p => fst (fst p) * snd (fst p) * factorials (snd p)) (combine (combine (tl a) (tl b)) (tl es))))%Q.
  Proof.
    intros Hf Hg. unfold covariance.
    assert (La : length a = length es) by (unfold es; rewrite exps_length; apply Hf).
    assert (Lb : length b = length es) by (unfold es; rewrite exps_length; apply Hg).
    pose proof (mean_expansion a f Hf) as Mf. pose proof (mean_expansion b g Hg) as Mg.
    pose proof (mean_product n order D es HN (exps_in n order) (exponents_nodup n order) a b La Lb) as M.
    rewrite (mean_ext D _ (fun x => (f x * g x + (- hd 0 b) * f x) + ((- hd 0 a) * g x + (hd 0 a * hd 0 b) * 1))%Q)
      by (intros w x _; rewrite Mf, Mg; ring).
    rewrite mean_plus, mean_plus, (mean_plus D (fun x => - hd 0 a * g x)%Q), !mean_scale, mean_one, Mf, Mg.
    rewrite (mean_ext D _ (fun x => entry_sum a es x * entry_sum b es x)%Q).
    - rewrite M. destruct a as [|a0 a]; [discriminate|]. destruct b as [|b0 b]; [discriminate|]. unfold es, exps.
      cbn [combine map tl hd]. rewrite qsum_cons. cbn [fst snd]. rewrite constant_factorials. ring.
    - intros w x I. rewrite (expands_entry n order a f x Ho Hf (proj1 HN w x I)), (expands_entry n order b g x Ho Hg (proj1 HN w x I)).
      reflexivity.
  Qed.
End Expansion.

(** The means of the squares. *)
Definition total (xs : list (list Q)) (f : list Q -> Q) : Q := qsum (map f xs).
Lemma mean_sample xs f : (mean_over (sample xs) f == total xs f / inject_Z (Z.of_nat (length xs)))%Q.
Proof.
  unfold sample. set (c := (1 / inject_Z (Z.of_nat (length xs)))%Q).
  transitivity (c * total xs f)%Q; [|unfold c, Qdiv; ring].
  unfold total. clearbody c. induction xs as [|x xs IH]; [cbn; ring|]. cbn [map]. rewrite qsum_cons.
  unfold mean_over in *. cbn [fold_right fst snd]. rewrite IH. ring.
Qed.

Lemma add_squares_ok n order : order <= 9 -> forall xs acc, Forall (fun x => length x = n) xs -> length acc = length (exps n order) ->
  exists r, add_squares n order xs acc = Ok r /\ length r = length (exps n order) /\
    Forall2 (fun ec v => (v == snd ec + total xs (fun x => hermite_product (fst ec) x * hermite_product (fst ec) x))%Q)
      (combine (exps n order) acc) r.
Proof.
  intros O. induction xs as [|x xs IH]; intros acc HF L.
  - exists acc. split; [reflexivity|]. split; [exact L|]. revert acc L. generalize (exps n order) as es.
    induction es as [|e es IHe]; intros [|c acc] L; try discriminate; constructor.
    + cbn. ring.
    + apply IHe. cbn in L. lia.
  - inversion HF as [|? ? Lx HF']; subst. cbn [add_squares].
    destruct (basis_value (length x) order x O eq_refl) as (psi & E & HP). rewrite E. cbn [bind].
    set (acc' := map (fun av => (fst av + snd av * snd av)%Q) (combine acc psi)).
    assert (Lp : length psi = length (exps (length x) order)) by (symmetry; exact (Forall2_len _ _ _ _ _ HP)).
    assert (L' : length acc' = length (exps (length x) order)) by (unfold acc'; rewrite map_length, combine_length; lia).
    destruct (IH acc' HF' L') as (r & Er & Lr & HR). exists r. split; [exact Er|]. split; [exact Lr|].
    fold (exps (length x) order) in HP. unfold acc' in HR. clear -HP HR L Lr. revert acc psi r HP HR L Lr.
    generalize (exps (length x) order) as es. induction es as [|e es IHe]; intros acc psi r HP HR L Lr.
    + destruct r; [constructor|discriminate].
    + destruct acc as [|c acc]; [discriminate|]. inversion HP as [|? v ? psi' Hv HP']; subst.
      destruct r as [|q r]; [discriminate|]. cbn [combine map] in HR. inversion HR as [|? ? ? ? Hq HR']; subst.
      cbn [combine]. constructor.
      * cbn [fst snd] in Hq |- *. rewrite Hq. unfold total. cbn [map]. rewrite qsum_cons, Hv. ring.
      * apply (IHe acc psi' r HP' HR'); cbn in L, Lr; lia.
Qed.

Lemma expectations n order xs : order <= 9 -> normal_to n (2 * order) (sample xs) ->
  exists ex, expectation_vector n order xs = Ok ex /\ Forall2 (fun e v => (v == factorials e)%Q) (exps n order) ex.
Proof.
  intros O HN. assert (HF : Forall (fun x => length x = n) xs).
  { apply Forall_forall. intros x I. apply (proj1 HN (1 / inject_Z (Z.of_nat (length xs)))%Q). unfold sample.
    apply in_map_iff. exists x. auto. }
  destruct (add_squares_ok n order O xs (repeat 0%Q (n_pol_parameters n order)) HF) as (r & E & L & HR).
  { rewrite repeat_length, exps_length. reflexivity. }
  unfold expectation_vector. rewrite E. cbn [bind]. eexists. split; [reflexivity|].
  rewrite <- exps_length in HR.
  assert (HI : forall e, In e (exps n order) -> length e = n /\ degree_sum e <= order) by apply exps_in.
  assert (G : forall es, (forall e, In e es -> length e = n /\ degree_sum e <= order) -> forall r,
     Forall2 (fun ec v => (v == snd ec + total xs (fun x => hermite_product (fst ec) x * hermite_product (fst ec) x))%Q)
       (combine es (repeat 0%Q (length es))) r ->
     Forall2 (fun e v => (v == factorials e)%Q) es (map (fun v => v / inject_Z (Z.of_nat (length xs)))%Q r)).
  { clear -HN. induction es as [|e es IH]; intros HI r HR; cbn [length repeat combine] in HR; inversion HR as [|? v ? r' Hv HR']; subst.
    - constructor.
    - cbn [map]. constructor; [|apply IH; [intros e' I; apply HI; right; exact I|exact HR']].
      cbn [fst snd] in Hv. rewrite Hv, Qplus_0_l, <- mean_sample. destruct (HI e (or_introl eq_refl)) as [Le Se].
      rewrite (orthogonal n order (sample xs) e e HN Le Le Se Se), same_refl. reflexivity. }
  apply G; assumption.
Qed.

Lemma statistics n order D xs a f : order <= 9 -> normal_to n (2 * order) D -> normal_to n (2 * order) (sample xs) ->
  expands n order a f ->
  exists ex m v, expectation_vector n order xs = Ok ex /\ pce_mean a = Ok m /\ pce_variance a ex = Ok v /\
    (m == mean_over D f /\ v == covariance D f f)%Q.
Proof.
  intros O HN HX He. destruct (expectations n order xs O HX) as (ex & E & HF).
  assert (La : length a = length (exps n order)) by (rewrite exps_length; apply He).
  pose proof (mean_expansion n order D O HN a f He) as M. pose proof (covariance_expansion n order D O HN a a f f He He) as C.
  unfold exps in *. inversion HF as [|? c ? ex' _ HF']; subst. destruct a as [|a0 a]; [discriminate|].
  pose proof (Forall2_len _ _ _ _ _ HF') as Lx. cbn [length] in La.
  exists (c :: ex'), a0, (fold_right (fun av acc => fst av * fst av * snd av + acc)%Q 0%Q (combine a ex')).
  split; [exact E|]. split; [reflexivity|]. split.
  - unfold pce_variance. cbn [tl]. replace (length a =? length ex') with true; [reflexivity|]. symmetry. apply Nat.eqb_eq. lia.
  - split; [rewrite M; reflexivity|]. rewrite C. cbn [tl]. clear -HF'. revert a.
    induction HF' as [|e v es ex Hv HF' IH]; intros [|q a]; try reflexivity.
    cbn [combine fold_right map fst snd]. rewrite qsum_cons. cbn [fst snd]. rewrite IH, Hv. ring.
Qed.

(** ** The filter *)
Lemma filter_covariance_sum a0 b0 : forall a b, length a = length b ->
  exists c, filter_covariance (S (length a)) (a0 :: a) (b0 :: b) = Ok c /\
    (c == qsum (map (fun p => fst p * snd p) (combine a b)))%Q.
Proof.
  intros a b L. unfold filter_covariance. replace (S (length a) - 1) with (length a) by lia.
  assert (G : forall a b pa pb s, length a = length b -> length pa = length pb ->
    exists c, fold_left (fun acc k => bind acc (fun s => match nth_error (pa ++ a) k, nth_error (pb ++ b) k with
                 | Some x, Some y => Ok (s + x * y)%Q | _, _ => Raise CasadiError end)) (seq (length pa) (length a)) (Ok s) = Ok c /\
      (c == s + qsum (map (fun p => fst p * snd p) (combine a b)))%Q).
  { clear. induction a as [|x a IH]; intros [|y b] pa pb s L LP; try discriminate.
    - exists s. split; [reflexivity|]. cbn. ring.
    - cbn [length seq fold_left bind].
      rewrite (nth_error_app2 pa), (nth_error_app2 pb) by lia. rewrite LP, Nat.sub_diag. cbn [nth_error].
      destruct (IH b (pa ++ [x]) (pb ++ [y]) (s + x * y)%Q) as (c & E & Ec); [cbn in L; lia|rewrite !app_length, LP; reflexivity|].
      exists c. split.
      + rewrite app_length in E. cbn [length] in E. rewrite <- LP. replace (S (length pa)) with (length pa + 1) by lia.
        rewrite <- !app_assoc in E. exact E.
      + rewrite Ec. cbn [combine map]. rewrite qsum_cons. cbn [fst snd]. ring. }
  destruct (G a b [a0] [b0] 0%Q L eq_refl) as (c & E & Ec). exists c. split; [exact E|]. rewrite Ec. ring.
Qed.

Lemma factorials_linear n e : length e = n -> degree_sum e <= 1 -> (factorials e == 1)%Q.
Proof.
  intros _. unfold factorials, product, degree_sum. induction e as [|d e IH]; intros H; [reflexivity|].
  cbn [map fold_right] in *. rewrite IH by lia. destruct d as [|[|d]]; [reflexivity | reflexivity | lia].
Qed.
Lemma filter_linear n D a b f g : normal_to n 2 D -> expands n 1 a f -> expands n 1 b g ->
  exists c, filter_covariance (n_pol_parameters n 1) a b = Ok c /\ (c == covariance D f g)%Q.
Proof.
  intros HN Hf Hg. pose proof (covariance_expansion n 1 D ltac:(lia) HN a b f g Hf Hg) as C.
  assert (La : length a = length (exps n 1)) by (rewrite exps_length; apply Hf).
  assert (Lb : length b = length (exps n 1)) by (rewrite exps_length; apply Hg).
  rewrite <- exps_length, <- La. unfold exps in *. destruct a as [|a0 a]; [discriminate|]. destruct b as [|b0 b]; [discriminate|].
  destruct (filter_covariance_sum a0 b0 a b) as (c & E & Ec); [cbn in La, Lb; lia|]. exists c. split; [exact E|].
  rewrite Ec, C. cbn [tl]. assert (HI : forall e, In e (exponents n 1) -> length e = n /\ degree_sum e <= 1).
  { intros e I. apply exps_in. right. exact I. }
  cbn [length] in La, Lb. apply Nat.succ_inj in La. apply Nat.succ_inj in Lb. clear -HI La Lb. revert a b La Lb HI.
  generalize (exponents n 1) as es. induction es as [|e es IH]; intros [|x a] [|y b] La Lb HI; try discriminate; [reflexivity|].
  cbn [combine map]. rewrite !qsum_cons. cbn [fst snd]. rewrite (IH a b) by (try (cbn in La, Lb; lia); intros e' I; apply HI; right; exact I).
  destruct (HI e (or_introl eq_refl)) as [L S]. rewrite (factorials_linear n e L S). ring.
Qed.

(** ** Examples *)
Lemma normal_one D d : (forall w x, In (w, x) D -> length x = 1) ->
  (forall k, k <= d -> (mean_over D (power_product [k]) == product [moment k])%Q) -> normal_to 1 d D.
Proof.
  intros H1 H2. split; [exact H1|]. intros [|k [|? ?]] L S; try discriminate. apply H2. cbn in S. lia.
Qed.
Ltac points := intros w x I; cbn [In five_points eleven_points sample twelve map] in I;
  repeat (destruct I as [I|I]; [injection I as _ <-; reflexivity|]); contradiction.
Lemma five_normal : normal_to 1 4 five_points.
Proof.
  apply normal_one; [points|]. intros k K. do 5 (destruct k as [|k]; [vm_compute; reflexivity|]). lia.
Qed.
Lemma eleven_normal : normal_to 1 11 eleven_points.
Proof.
  apply normal_one; [points|]. intros k K. do 12 (destruct k as [|k]; [vm_compute; reflexivity|]). lia.
Qed.
Lemma twelve_normal : normal_to 1 4 (sample twelve).
Proof.
  apply normal_one; [points|]. intros k K. do 5 (destruct k as [|k]; [vm_compute; reflexivity|]). lia.
Qed.

Lemma filter_square D f : normal_to 1 4 D -> expands 1 2 [0; 0; 1]%Q f ->
  filter_covariance (n_pol_parameters 1 2) [0; 0; 1]%Q [0; 0; 1]%Q = Ok 1%Q /\ (covariance D f f == 2)%Q.
Proof.
  intros HN He. split; [vm_compute; reflexivity|].
  rewrite (covariance_expansion 1 2 D ltac:(lia) HN _ _ f f He He). vm_compute. reflexivity.
Qed.

Lemma tenth_basis x : exists psi, basis 1 10 [x] = Ok psi /\
  (combination tenth psi == x ^ 10 - 45 * x ^ 8 + 640 * x ^ 6 - 3150 * x ^ 4 + 4725 * x ^ 2 - 945)%Q.
Proof.
  unfold basis. rewrite <- (exps_length 1 10). unfold exps. remember (exponents 1 10) as es eqn:Ees. vm_compute in Ees. subst es.
  cbn [length repeat]. cbn [fill basis_product nth_error hermite_table bind]. eexists. split; [reflexivity|].
  unfold combination, tenth. cbn [repeat app combine map fold_right fst snd]. ring.
Qed.
Lemma tenth_mean D f : normal_to 1 10 D -> expands 1 10 tenth f -> pce_mean tenth = Ok 0%Q /\ (mean_over D f == 150)%Q.
Proof.
  intros [HD HM] He. split; [reflexivity|].
  pose (p := fun k => power_product [k]).
  rewrite (mean_ext D f (fun x => p 10%nat x + (-45 * p 8%nat x + (640 * p 6%nat x + (-3150 * p 4%nat x + (4725 * p 2%nat x + -945 * p 0%nat x)))))%Q).
  - rewrite (mean_plus D (p 10%nat)), (mean_plus D (fun x => -45 * p 8%nat x)%Q), (mean_plus D (fun x => 640 * p 6%nat x)%Q),
      (mean_plus D (fun x => -3150 * p 4%nat x)%Q), (mean_plus D (fun x => 4725 * p 2%nat x)%Q), !mean_scale.
    unfold p. rewrite !HM by (cbn; lia). vm_compute. reflexivity.
  - intros w x I. pose proof (HD w x I) as L. destruct x as [|v [|? ?]]; try discriminate.
    destruct (tenth_basis v) as (psi & E & V). rewrite (proj2 He [v] psi eq_refl E), V. unfold p, power_product.
    cbn [combine map fold_right fst snd]. change (Z.of_nat 10) with 10%Z. change (Z.of_nat 8) with 8%Z. change (Z.of_nat 6) with 6%Z.
    change (Z.of_nat 4) with 4%Z. change (Z.of_nat 2) with 2%Z. change (Z.of_nat 0) with 0%Z. change (v ^ 0)%Q with 1%Q. ring.
Qed.

(** ** Polynomials of the basis *)
Lemma Forall2_at (A B : Type) (R : A -> B -> Prop) l l' i a : Forall2 R l l' -> nth_error l i = Some a ->
  exists b, nth_error l' i = Some b /\ R a b.
Proof.
  intros H. revert i. induction H as [|x y l l' Hxy H IH]; intros [|i] Hi; try discriminate.
  - injection Hi as <-. exists y. split; [reflexivity | exact Hxy].
  - apply (IH i Hi).
Qed.
Lemma unit_sum (c : list nat -> Q) : forall es i j b e, nth_error es i = Some e ->
  (qsum (map (fun p => fst (fst p) * snd (fst p) * c (snd p))
     (combine (combine (map (fun k => if k =? b + i then 1 else 0) (seq b (length es))) (map (fun k => if k =? b + j then 1 else 0) (seq b (length es)))) es))
   == if i =? j then c e else 0)%Q.
Proof.
  assert (Z : forall es j b b', b < b' -> (qsum (map (fun p => fst (fst p) * snd (fst p) * c (snd p))
     (combine (combine (map (fun k => if k =? b then 1 else 0) (seq b' (length es))) (map (fun k => if k =? j then 1 else 0) (seq b' (length es)))) es)) == 0)%Q).
  { induction es as [|e es IH]; intros j b b' Hb; [reflexivity|]. cbn [length seq map combine]. rewrite qsum_cons. cbn [fst snd].
    rewrite (IH j b (S b')) by lia. replace (b' =? b) with false by (symmetry; apply Nat.eqb_neq; lia). destruct (b' =? j); ring. }
  assert (Z' : forall es j b b', b < b' -> (qsum (map (fun p => fst (fst p) * snd (fst p) * c (snd p))
     (combine (combine (map (fun k => if k =? j then 1 else 0) (seq b' (length es))) (map (fun k => if k =? b then 1 else 0) (seq b' (length es)))) es)) == 0)%Q).
  { induction es as [|e es IH]; intros j b b' Hb; [reflexivity|]. cbn [length seq map combine]. rewrite qsum_cons. cbn [fst snd].
    rewrite (IH j b (S b')) by lia. replace (b' =? b) with false by (symmetry; apply Nat.eqb_neq; lia). destruct (b' =? j); ring. }
  induction es as [|e0 es IH]; intros i j b e He; [destruct i; discriminate|].
  cbn [length seq map combine]. rewrite qsum_cons. cbn [fst snd]. destruct i as [|i], j as [|j].
  - injection He as ->. rewrite Nat.add_0_r, Nat.eqb_refl, (Z es b b (S b)) by lia. cbn. ring.
  - rewrite Nat.add_0_r, Nat.eqb_refl, (Z es (b + S j) b (S b)) by lia. replace (b =? b + S j) with false by (symmetry; apply Nat.eqb_neq; lia). cbn. ring.
  - rewrite Nat.add_0_r, Nat.eqb_refl, (Z' es (b + S i) b (S b)) by lia. replace (b =? b + S i) with false by (symmetry; apply Nat.eqb_neq; lia). cbn. ring.
  - replace (b + S i) with (S b + i) by lia. replace (b + S j) with (S b + j) by lia. rewrite (IH i j (S b) e He).
    replace (b =? S b + i) with false by (symmetry; apply Nat.eqb_neq; lia). cbn [Nat.eqb]. ring.
Qed.

Lemma basis_orthogonal n order D xs i j f g : order <= 9 -> normal_to n (2 * order) D -> normal_to n (2 * order) (sample xs) ->
  i < n_pol_parameters n order -> j < n_pol_parameters n order ->
  expands n order (unit_at (n_pol_parameters n order) i) f -> expands n order (unit_at (n_pol_parameters n order) j) g ->
  exists ex v, expectation_vector n order xs = Ok ex /\ length ex = n_pol_parameters n order /\ nth_error ex i = Some v /\ (0 < v)%Q /\
    (mean_over D (fun x => f x * g x) == if i =? j then v else 0)%Q.
Proof.
  intros O HN HX Hi Hj Hf Hg. destruct (expectations n order xs O HX) as (ex & E & HF).
  rewrite <- exps_length in *. destruct (nth_error (exps n order) i) as [e|] eqn:Ei; [|apply nth_error_None in Ei; lia].
  destruct (Forall2_at _ _ _ _ _ _ _ HF Ei) as (v & Ev & Hv). exists ex, v. split; [exact E|]. split; [symmetry; exact (Forall2_len _ _ _ _ _ HF)|].
  split; [exact Ev|]. split.
  - rewrite Hv. clear. unfold factorials, product. induction e as [|d e IH]; [reflexivity|]. cbn [map fold_right].
    apply Qmult_lt_0_compat; [|exact IH]. change 0%Q with (inject_Z 0). rewrite <- Zlt_Qlt. pose proof (lt_O_fact d). lia.
  - rewrite (mean_ext D _ (fun x => entry_sum (unit_at (length (exps n order)) i) (exps n order) x * entry_sum (unit_at (length (exps n order)) j) (exps n order) x)%Q).
    + rewrite (mean_product n order D (exps n order) HN (exps_in n order) (exponents_nodup n order)) by (unfold unit_at; rewrite map_length, seq_length; reflexivity).
      unfold unit_at. rewrite (unit_sum factorials (exps n order) i j 0 e Ei). destruct (i =? j); [symmetry; exact Hv | reflexivity].
    + intros w x I. pose proof (proj1 HN w x I) as L. rewrite (expands_entry n order _ f x O Hf L), (expands_entry n order _ g x O Hg L). reflexivity.
Qed.
Lemma tenth_expands : expands 1 10 tenth (fun x => let v := nth 0 x 0 in v ^ 10 - 45 * v ^ 8 + 640 * v ^ 6 - 3150 * v ^ 4 + 4725 * v ^ 2 - 945)%Q.
Proof.
  split.
  - rewrite <- exps_length. vm_compute. reflexivity.
  - intros x psi L E. destruct x as [|v x]; [discriminate L|]. destruct x as [|? ?]; [|discriminate L].
    destruct (tenth_basis v) as (psi' & E' & V). pose proof (eq_trans (eq_sym E') E) as X. clear E E'. injection X as <-.
    cbn [nth]. symmetry. exact V.
Qed.

(** Proofs about Lagrange polynomials and polynomial approximations. *)
From Coq Require Import Setoid Field QArith Lqa.
From Verif Require Import Base BaseProofs ExprModel LagModel LagSpec.
Local Open Scope Q_scope.

(** ** Polynomials as coefficient lists *)

Fixpoint padd (a b : list Q) : list Q :=
  match a, b with
  | [], _ => b
  | _, [] => a
  | x :: a', y :: b' => (x + y) :: padd a' b'
  end.
Definition pscale (k : Q) (a : list Q) : list Q := map (Qmult k) a.

Lemma poly_padd : forall a b t, poly (padd a b) t == poly a t + poly b t.
Proof.
  induction a as [|x a IH]; intros [|y b] t; simpl; try ring. rewrite IH. ring.
Qed.
Lemma poly_pscale : forall k a t, poly (pscale k a) t == k * poly a t.
Proof. induction a as [|x a IH]; intros t; simpl; [ring|]. unfold pscale in IH. rewrite IH. ring. Qed.
Lemma padd_length : forall a b, length (padd a b) = Nat.max (length a) (length b).
Proof. induction a as [|x a IH]; intros [|y b]; simpl; try reflexivity. rewrite IH. reflexivity. Qed.
Lemma pscale_length : forall k a, length (pscale k a) = length a.
Proof. intros; apply map_length. Qed.

Lemma poly_compat : forall c t t', t == t' -> poly c t == poly c t'.
Proof. induction c as [|a c IH]; intros t t' H; simpl; [reflexivity|]. rewrite (IH t t' H), H. reflexivity. Qed.
Global Instance poly_proper c : Proper (Qeq ==> Qeq) (poly c).
Proof. intros t t' H. apply poly_compat, H. Qed.

Lemma divide_linear : forall c r,
    exists q, length q = pred (length c) /\ forall t, poly c t == (t - r) * poly q t + poly c r.
Proof.
  induction c as [|a c IH]; intros r.
  - exists []. split; [reflexivity|]. intros t; simpl; ring.
  - destruct (IH r) as [q [Hl Hq]]. destruct c as [|b c].
    + exists []. split; [reflexivity|]. intros t; simpl; ring.
    + exists (poly (b :: c) r :: q). split; [simpl in *; lia|]. intros t.
      change (poly (a :: b :: c) t) with (a + t * poly (b :: c) t).
      change (poly (a :: b :: c) r) with (a + r * poly (b :: c) r).
      change (poly (poly (b :: c) r :: q) t) with (poly (b :: c) r + t * poly q t).
      rewrite (Hq t). ring.
Qed.

Lemma distinct_tail : forall r rs, distinct (r :: rs) -> distinct rs.
Proof.
  intros r rs H j k Hj Hk E. assert (S j = S k); [|lia]. apply H; simpl; [lia | lia | exact E].
Qed.
Lemma distinct_head : forall r rs s, distinct (r :: rs) -> In s rs -> ~ s == r.
Proof.
  intros r rs s H Hs E. apply (In_nth _ _ 0) in Hs. destruct Hs as [k [Hk Ek]].
  assert (S k = O); [|discriminate]. apply H; simpl; [lia | lia |]. rewrite Ek. exact E.
Qed.

Lemma too_many_roots : forall rs c,
    distinct rs -> (length c <= length rs)%nat -> (forall r, In r rs -> poly c r == 0) ->
    forall t, poly c t == 0.
Proof.
  induction rs as [|r rs IH]; intros c Hd Hl Hr t.
  - destruct c; [reflexivity | simpl in Hl; lia].
  - destruct (divide_linear c r) as [q [Hq Hdiv]]. rewrite (Hdiv t), (Hr r (or_introl eq_refl)).
    rewrite (IH q); [ring | eapply distinct_tail; exact Hd | simpl in Hl; lia |].
    intros s Hs. pose proof (Hr s (or_intror Hs)) as Hz. rewrite (Hdiv s), (Hr r (or_introl eq_refl)) in Hz.
    assert (Hz' : (s - r) * poly q s == 0) by (rewrite <- Hz; ring).
    destruct (Qmult_integral _ _ Hz') as [E|E]; [|exact E].
    exfalso. apply (distinct_head r rs s Hd Hs). lra.
Qed.

Lemma interpolation_unique : forall rs c d,
    distinct rs -> (length c <= length rs)%nat -> (length d <= length rs)%nat ->
    (forall r, In r rs -> poly c r == poly d r) -> forall t, poly c t == poly d t.
Proof.
  intros rs c d Hd Hc Hl H t.
  assert (E : poly (padd c (pscale (-1) d)) t == 0).
  { apply (too_many_roots rs); [exact Hd | rewrite padd_length, pscale_length; lia|].
    intros r Hr. rewrite poly_padd, poly_pscale, (H r Hr). ring. }
  rewrite poly_padd, poly_pscale in E. lra.
Qed.

(** ** One basis polynomial *)

(** The product over the other points. *)
Fixpoint lprod (others : list Q) (r t : Q) : Q :=
  match others with
  | [] => 1
  | s :: others' => (t - s) / (r - s) * lprod others' r t
  end.

Lemma eval_ell_acc : forall F env tau roots j idx acc,
    eval F env (fold_left
      (fun ell k =>
         if Nat.eqb k j then ell
         else EBin OMul ell
                (EBin ODiv (EBin OSub (EVar tau) (EConst (nth k roots 0)))
                           (EConst (nth j roots 0 - nth k roots 0)))) idx acc) ==
    eval F env acc *
    lprod (map (fun k => nth k roots 0) (filter (fun k => negb (Nat.eqb k j)) idx)) (nth j roots 0) (env tau).
Proof.
  intros F env tau roots j idx. induction idx as [|k idx IH]; intros acc; cbn [fold_left filter].
  - simpl. ring.
  - destruct (Nat.eqb k j) eqn:E; cbn [negb].
    + apply IH.
    + rewrite IH. cbn [eval binop_eval map lprod]. ring.
Qed.

Lemma eval_ell : forall F env tau roots idx j,
    eval F env (lagrange_ell tau roots idx j) ==
    lprod (map (fun k => nth k roots 0) (filter (fun k => negb (Nat.eqb k j)) idx)) (nth j roots 0) (env tau).
Proof. intros. unfold lagrange_ell. rewrite eval_ell_acc. cbn [eval]. ring. Qed.

Lemma lprod_own : forall others r, (forall s, In s others -> ~ s == r) -> lprod others r r == 1.
Proof.
  induction others as [|s others IH]; intros r H; simpl; [reflexivity|].
  rewrite IH by (intros s' Hs'; apply H; right; exact Hs').
  field. intros E. apply (H s (or_introl eq_refl)). lra.
Qed.

Lemma lprod_other : forall others r s t, In s others -> t == s -> lprod others r t == 0.
Proof.
  induction others as [|s0 others IH]; intros r s t Hs Ht; [contradiction|]. simpl.
  destruct Hs as [<-|Hs].
  - assert (E : t - s0 == 0) by lra. rewrite E. unfold Qdiv. ring.
  - rewrite (IH r s t Hs Ht). ring.
Qed.

Lemma lprod_compat : forall others r t t', t == t' -> lprod others r t == lprod others r t'.
Proof.
  induction others as [|s others IH]; intros r t t' H; simpl; [reflexivity|].
  rewrite (IH r t t' H), H. reflexivity.
Qed.

Lemma lprod_poly : forall others r,
    exists c, length c = S (length others) /\ forall t, poly c t == lprod others r t.
Proof.
  induction others as [|s others IH]; intros r.
  - exists [1]. split; [reflexivity|]. intros t; simpl; ring.
  - destruct (IH r) as [c [Hl Hc]].
    exists (pscale (/ (r - s)) (padd (0 :: c) (pscale (- s) c))). split.
    + rewrite pscale_length, padd_length, pscale_length. cbn [length]. lia.
    + intros t. rewrite poly_pscale, poly_padd, poly_pscale. cbn [poly lprod]. rewrite (Hc t).
      unfold Qdiv. ring.
Qed.

(** ** The basis *)

Definition other_points (roots : list Q) (j : nat) : list Q :=
  map (fun k => nth k roots 0) (filter (fun k => negb (Nat.eqb k j)) (seq 0 (length roots))).

Lemma other_points_In : forall roots j s,
    In s (other_points roots j) <-> exists k, (k < length roots)%nat /\ k <> j /\ nth k roots 0 = s.
Proof.
  intros roots j s. unfold other_points. rewrite in_map_iff. split.
  - intros [k [E H]]. apply filter_In in H. destruct H as [H1 H2]. apply in_seq in H1.
    exists k. split; [lia|]. split; [|exact E]. intros ->. rewrite Nat.eqb_refl in H2. discriminate.
  - intros [k [H1 [H2 E]]]. exists k. split; [exact E|]. apply filter_In. split; [apply in_seq; lia|].
    destruct (Nat.eqb_spec k j); [contradiction | reflexivity].
Qed.

Lemma filter_neq_length : forall l j, NoDup l -> In j l ->
    S (length (filter (fun k => negb (Nat.eqb k j)) l)) = length l.
Proof.
  induction l as [|a l IH]; intros j Hn Hin; [contradiction|]. inversion Hn as [|? ? Ha Hn']; subst.
  simpl. destruct (Nat.eqb_spec a j) as [->|E]; simpl.
  - f_equal. f_equal. clear IH Hn Hin Hn'. induction l as [|b l IH]; [reflexivity|]. simpl.
    destruct (Nat.eqb_spec b j) as [->|E]; simpl.
    + exfalso; apply Ha; left; reflexivity.
    + f_equal. apply IH. intros H; apply Ha; right; exact H.
  - destruct Hin as [H|Hin]; [contradiction|]. f_equal. apply IH; assumption.
Qed.

Lemma other_points_length : forall roots j, (j < length roots)%nat ->
    S (length (other_points roots j)) = length roots.
Proof.
  intros roots j Hj. unfold other_points. rewrite map_length.
  rewrite filter_neq_length; [apply seq_length | apply seq_NoDup | apply in_seq; lia].
Qed.

Definition basis_over (tau : sym) (roots : list Q) : list expr :=
  map (lagrange_ell tau roots (seq 0 (length roots))) (seq 0 (length roots)).

Lemma basis_length : forall tau roots, length (basis_over tau roots) = length roots.
Proof. intros. unfold basis_over. rewrite map_length, seq_length. reflexivity. Qed.

Lemma basis_nth : forall tau roots j, (j < length roots)%nat ->
    nth j (basis_over tau roots) (EConst 0) = lagrange_ell tau roots (seq 0 (length roots)) j.
Proof.
  intros tau roots j Hj. unfold basis_over.
  rewrite (nth_indep _ _ (lagrange_ell tau roots (seq 0 (length roots)) 0))
    by (rewrite map_length, seq_length; exact Hj).
  rewrite map_nth, seq_nth by exact Hj. reflexivity.
Qed.

Lemma eval_basis : forall F env tau roots j, (j < length roots)%nat ->
    eval F env (nth j (basis_over tau roots) (EConst 0)) ==
    lprod (other_points roots j) (nth j roots 0) (env tau).
Proof. intros. rewrite basis_nth by assumption. apply eval_ell. Qed.

Lemma basis_own : forall F env tau roots j,
    distinct roots -> (j < length roots)%nat -> env tau == nth j roots 0 ->
    eval F env (nth j (basis_over tau roots) (EConst 0)) == 1.
Proof.
  intros F env tau roots j Hd Hj Ht. rewrite eval_basis by exact Hj.
  rewrite (lprod_compat _ _ _ _ Ht). apply lprod_own. intros s Hs E.
  apply other_points_In in Hs. destruct Hs as [k [Hk [Hne <-]]]. apply Hne. apply Hd; assumption.
Qed.

Lemma basis_other : forall F env tau roots j k,
    (j < length roots)%nat -> (k < length roots)%nat -> j <> k -> env tau == nth k roots 0 ->
    eval F env (nth j (basis_over tau roots) (EConst 0)) == 0.
Proof.
  intros F env tau roots j k Hj Hk Hne Ht. rewrite eval_basis by exact Hj.
  apply (lprod_other _ _ (nth k roots 0)); [|exact Ht]. apply other_points_In.
  exists k. split; [exact Hk|]. split; [congruence | reflexivity].
Qed.

(** ** Combinations *)

(** Sum of [n] terms. *)
Definition terms (f : nat -> Q) (n : nat) : Q := qsum (map f (seq 0 n)).

Lemma qsum_app : forall a b, qsum (a ++ b) == qsum a + qsum b.
Proof. induction a as [|x a IH]; intros b; simpl; [ring|]. rewrite IH. ring. Qed.

Lemma terms_S : forall f n, terms f (S n) == terms f n + f n.
Proof. intros. unfold terms. rewrite seq_S, map_app, qsum_app. simpl. ring. Qed.

Lemma qsum_zero : forall l, (forall q, In q l -> q == 0) -> qsum l == 0.
Proof.
  induction l as [|a l IH]; intros H; simpl; [reflexivity|].
  rewrite (H a (or_introl eq_refl)), IH by (intros q Hq; apply H; right; exact Hq). ring.
Qed.

Lemma terms_ext : forall f g n, (forall j, (j < n)%nat -> f j == g j) -> terms f n == terms g n.
Proof.
  intros f g n. induction n as [|n IH]; intros H; [reflexivity|].
  rewrite !terms_S, IH by (intros j Hj; apply H; lia). rewrite (H n) by lia. reflexivity.
Qed.

Lemma terms_zero : forall f n, (forall j, (j < n)%nat -> f j == 0) -> terms f n == 0.
Proof.
  intros f n H. unfold terms. apply qsum_zero. intros q Hq. apply in_map_iff in Hq.
  destruct Hq as [j [<- Hj]]. apply in_seq in Hj. apply H. lia.
Qed.

Lemma terms_single : forall f n k, (k < n)%nat -> (forall j, (j < n)%nat -> j <> k -> f j == 0) ->
    terms f n == f k.
Proof.
  intros f n. induction n as [|n IH]; intros k Hk H; [lia|]. rewrite terms_S.
  destruct (Nat.eq_dec k n) as [->|Hne].
  - rewrite terms_zero; [ring|]. intros j Hj. apply H; lia.
  - rewrite (IH k); [|lia|intros j Hj Hjk; apply H; lia]. rewrite (H n) by lia. ring.
Qed.

Lemma eval_sum : forall F env (g : nat -> expr) idx acc,
    eval F env (fold_left (fun a j => EBin OAdd a (g j)) idx acc) ==
    eval F env acc + qsum (map (fun j => eval F env (g j)) idx).
Proof.
  intros F env g idx. induction idx as [|k idx IH]; intros acc; cbn [fold_left map qsum]; [ring|].
  rewrite IH. cbn [eval binop_eval]. ring.
Qed.

(** The interpolating combination of values at every point. *)
Lemma interpolation_at_point : forall F env tau roots v k,
    distinct roots -> (k < length roots)%nat -> env tau == nth k roots 0 ->
    terms (fun j => eval F env (nth j (basis_over tau roots) (EConst 0)) * v j) (length roots) == v k.
Proof.
  intros F env tau roots v k Hd Hk Ht. rewrite (terms_single _ _ k Hk).
  - rewrite (basis_own F env tau roots k Hd Hk Ht). ring.
  - intros j Hj Hne. rewrite (basis_other F env tau roots j k Hj Hk Hne Ht). ring.
Qed.

Lemma lagrange_sum_poly : forall roots v n, (n <= length roots)%nat ->
    exists c, (length c <= length roots)%nat /\
      forall t, poly c t == terms (fun j => lprod (other_points roots j) (nth j roots 0) t * v j) n.
Proof.
  intros roots v n. induction n as [|n IH]; intros Hn.
  - exists []. split; [simpl; lia|]. intros t; reflexivity.
  - destruct IH as [c [Hl Hc]]; [lia|].
    destruct (lprod_poly (other_points roots n) (nth n roots 0)) as [d [Hd1 Hd2]].
    exists (padd c (pscale (v n) d)). split.
    + rewrite padd_length, pscale_length, Hd1, other_points_length by lia. lia.
    + intros t. rewrite poly_padd, poly_pscale, terms_S, Hc, Hd2. ring.
Qed.

Lemma interpolation_reproduces : forall F env tau roots c,
    distinct roots -> (length c <= length roots)%nat ->
    terms (fun j => eval F env (nth j (basis_over tau roots) (EConst 0)) * poly c (nth j roots 0))
          (length roots) == poly c (env tau).
Proof.
  intros F env tau roots c Hd Hl.
  rewrite (terms_ext _ (fun j => lprod (other_points roots j) (nth j roots 0) (env tau) * poly c (nth j roots 0))).
  2:{ intros j Hj. rewrite eval_basis by exact Hj. reflexivity. }
  destruct (lagrange_sum_poly roots (fun j => poly c (nth j roots 0)) (length roots) (le_n _)) as [d [Hdl Hd']].
  rewrite <- Hd'. apply (interpolation_unique roots); [exact Hd | exact Hdl | exact Hl|].
  intros r Hr. apply (In_nth _ _ 0) in Hr. destruct Hr as [k [Hk <-]]. rewrite Hd'.
  rewrite (terms_single _ _ k Hk).
  - rewrite lprod_own; [ring|]. intros s Hs E. apply other_points_In in Hs.
    destruct Hs as [m [Hm [Hne <-]]]. apply Hne. apply Hd; assumption.
  - intros j Hj Hne. rewrite (lprod_other _ _ (nth k roots 0) (nth k roots 0)); [ring| |reflexivity].
    apply other_points_In. exists k. split; [exact Hk|]. split; [congruence | reflexivity].
Qed.

Lemma qsum_map_nth : forall (es : list expr) (g : expr -> Q),
    qsum (map g es) == terms (fun j => g (nth j es (EConst 0))) (length es).
Proof.
  intros es g. unfold terms.
  assert (E : map (fun j => g (nth j es (EConst 0))) (seq 0 (length es)) = map g es).
  { rewrite <- (map_map (fun j => nth j es (EConst 0)) g). f_equal.
    clear g. induction es as [|e es IH]; [reflexivity|]. simpl. f_equal. rewrite <- seq_shift, map_map. exact IH. }
  rewrite E. reflexivity.
Qed.

Lemma basis_sums_to_one : forall F env tau roots,
    distinct roots -> roots <> [] ->
    qsum (map (eval F env) (basis_over tau roots)) == 1.
Proof.
  intros F env tau roots Hd Hne. rewrite (qsum_map_nth _ (eval F env)), basis_length.
  rewrite (terms_ext _ (fun j => eval F env (nth j (basis_over tau roots) (EConst 0)) * poly [1] (nth j roots 0))).
  - rewrite interpolation_reproduces; [simpl; ring | exact Hd|].
    destruct roots; [contradiction | simpl; lia].
  - intros j _. simpl. ring.
Qed.

(** ** The two ways the code builds the basis *)

Lemma util_basis_over : forall points tau degree z,
    util_basis points tau degree z = basis_over tau (interpolation_points points degree z).
Proof. intros. unfold util_basis, basis_over, interpolation_points. reflexivity. Qed.

Lemma method_basis_zero : forall points tau degree,
    length (points degree) = degree ->
    method_basis points tau degree 0 = basis_over tau (interpolation_points points degree true).
Proof.
  intros points tau degree H. unfold method_basis, basis_over, interpolation_points. cbn [length].
  rewrite H. replace (degree + 1 - 0)%nat with (S degree) by lia. reflexivity.
Qed.

Lemma fold_left_map_S : forall (A : Type) (f : A -> nat -> A) l acc,
    fold_left f (map S l) acc = fold_left (fun a k => f a (S k)) l acc.
Proof. intros A f l. induction l as [|k l IH]; intros acc; [reflexivity|]. simpl. apply IH. Qed.

Lemma lagrange_ell_shift : forall tau r roots n j,
    lagrange_ell tau (r :: roots) (seq 1 n) (S j) = lagrange_ell tau roots (seq 0 n) j.
Proof.
  intros. unfold lagrange_ell. rewrite <- seq_shift, fold_left_map_S. reflexivity.
Qed.

Lemma method_basis_one : forall points tau degree,
    length (points degree) = degree ->
    method_basis points tau degree 1 = basis_over tau (interpolation_points points degree false).
Proof.
  intros points tau degree H. unfold method_basis, basis_over, interpolation_points.
  rewrite H. replace (degree + 1 - 1)%nat with degree by lia.
  rewrite <- (seq_shift degree 0), map_map, (seq_shift degree 0). apply map_ext. intros j. apply lagrange_ell_shift.
Qed.

(** ** Parameter layout *)

Lemma flat_map_const_length : forall (A B : Type) (f : A -> list B) n l,
    (forall a, In a l -> length (f a) = n) -> length (flat_map f l) = (length l * n)%nat.
Proof.
  intros A B f n l. induction l as [|a l IH]; intros H; simpl; [reflexivity|].
  rewrite app_length, IH by (intros b Hb; apply H; right; exact Hb).
  rewrite (H a (or_introl eq_refl)). reflexivity.
Qed.

Lemma flat_map_nth_block : forall (A B : Type) (f : A -> list B) n l (d : B) da i j,
    (forall a, In a l -> length (f a) = n) -> (j < length l)%nat -> (i < n)%nat ->
    nth (j * n + i) (flat_map f l) d = nth i (f (nth j l da)) d.
Proof.
  intros A B f n l d da. induction l as [|a l IH]; intros i j H Hj Hi; [simpl in Hj; lia|].
  cbn [flat_map]. destruct j as [|j].
  - cbn [nth Nat.mul Nat.add]. apply app_nth1. rewrite (H a (or_introl eq_refl)). exact Hi.
  - rewrite app_nth2; rewrite (H a (or_introl eq_refl)); [|simpl; lia].
    replace (S j * n + i - n)%nat with (j * n + i)%nat by (simpl; lia). cbn [nth].
    apply IH; [intros b Hb; apply H; right; exact Hb | simpl in Hj; lia | exact Hi].
Qed.

Lemma vec_points_length : forall first size n, length (vec_points first size n) = (size * n)%nat.
Proof.
  intros. unfold vec_points.
  rewrite (flat_map_const_length _ _ _ size) by (intros; rewrite map_length, seq_length; reflexivity).
  rewrite seq_length. apply Nat.mul_comm.
Qed.

Lemma vec_points_nth : forall first size n i j d, (i < size)%nat -> (j < n)%nat ->
    nth (j * size + i) (vec_points first size n) d = point_sym first n i j.
Proof.
  intros first size n i j d Hi Hj. unfold vec_points.
  rewrite (flat_map_nth_block _ _ _ size _ d 0%nat).
  - rewrite seq_nth by exact Hj. rewrite (nth_indep _ _ (point_sym first n 0 (0 + j)))
      by (rewrite map_length, seq_length; exact Hi).
    rewrite (map_nth (fun i0 => point_sym first n i0 (0 + j))), seq_nth by exact Hi. reflexivity.
  - intros. rewrite map_length, seq_length. reflexivity.
  - rewrite seq_length. exact Hj.
  - exact Hi.
Qed.

Lemma point_sym_inj : forall first n i j i' j', (j < n)%nat -> (j' < n)%nat ->
    point_sym first n i j = point_sym first n i' j' -> i = i' /\ j = j'.
Proof.
  intros first n i j i' j' Hj Hj' H. unfold point_sym in H.
  assert (E : (i * n + j = i' * n + j')%nat) by lia. clear H.
  assert (Hi : i = i').
  { destruct (Nat.lt_trichotomy i i') as [H|[H|H]]; [|exact H|]; exfalso; nia. }
  subst. split; [reflexivity | lia].
Qed.

Lemma vec_points_NoDup : forall first size n, NoDup (vec_points first size n).
Proof.
  intros first size n. unfold vec_points.
  assert (H : forall l, NoDup l -> (forall j, In j l -> (j < n)%nat) ->
              NoDup (flat_map (fun j => map (fun i => point_sym first n i j) (seq 0 size)) l)).
  { induction l as [|j l IH]; intros Hn Hl; simpl; [constructor|]. inversion Hn as [|? ? Hj Hn']; subst.
    apply NoDup_app_intro.
    - apply FinFun.Injective_map_NoDup; [|apply seq_NoDup]. intros a b E.
      apply point_sym_inj in E; [apply E | apply Hl; left; reflexivity | apply Hl; left; reflexivity].
    - apply IH; [exact Hn' | intros k Hk; apply Hl; right; exact Hk].
    - intros s H1 H2. apply in_map_iff in H1. destruct H1 as [i [<- _]]. apply in_flat_map in H2.
      destruct H2 as [k [Hk H2]]. apply in_map_iff in H2. destruct H2 as [i' [E _]].
      apply point_sym_inj in E; [|apply Hl; right; exact Hk | apply Hl; left; reflexivity].
      destruct E as [_ ->]. contradiction. }
  apply H; [apply seq_NoDup | intros j Hj; apply in_seq in Hj; lia].
Qed.

Lemma combination_length : forall ell first size n m, m <> O -> length (combination ell first size n m) = size.
Proof. intros ell first size n [|m] H; [contradiction|]. simpl. rewrite map_length, seq_length. reflexivity. Qed.

Lemma combination_nth : forall F env ell first size n m i, m <> O -> (i < size)%nat ->
    eval F env (nth i (combination ell first size n m) (EConst 0)) ==
    terms (fun j => eval F env (nth j ell (EConst 0)) * env (point_sym first n i j)) m.
Proof.
  intros F env ell first size n m i Hm Hi. unfold combination. destruct m as [|m]; [contradiction|].
  set (f := fun i0 : nat => fold_left _ (seq 0 (S m)) (EConst 0)).
  rewrite (nth_indep _ _ (f 0%nat)) by (rewrite map_length, seq_length; exact Hi).
  rewrite map_nth, seq_nth by exact Hi. unfold f.
  rewrite (eval_sum F env (fun j => EBin OMul (nth j ell (EConst 0)) (EVar (point_sym first n (0 + i) j)))).
  cbn [eval binop_eval Nat.add]. rewrite Qplus_0_l. reflexivity.
Qed.

(** ** unvec *)

Lemma columns_app : forall (A : Type) n (f : nat -> list A) l,
    (forall j, In j l -> length (f j) = n) -> columns n (length l) (flat_map f l) = map f l.
Proof.
  intros A n f l. induction l as [|a l IH]; intros H; [reflexivity|]. cbn [length flat_map columns map].
  assert (Ha : length (f a) = n) by (apply H; left; reflexivity).
  rewrite firstn_app, Ha, Nat.sub_diag, firstn_O, app_nil_r, <- Ha, firstn_all.
  rewrite skipn_app, skipn_all, Nat.sub_diag, skipn_O. cbn [app]. f_equal.
  rewrite Ha. apply IH. intros j Hj; apply H; right; exact Hj.
Qed.

Lemma concat_columns : forall (A : Type) n d (v : list A),
    length v = (n * d)%nat -> concat (columns n d v) = v.
Proof.
  intros A n d. induction d as [|d IH]; intros v H.
  - rewrite Nat.mul_0_r in H. destruct v; [reflexivity | discriminate].
  - cbn [columns concat]. rewrite IH; [apply firstn_skipn|]. rewrite skipn_length, H. lia.
Qed.

Lemma columns_count : forall (A : Type) n d (v : list A), length (columns n d v) = d.
Proof. intros A n d. induction d as [|d IH]; intros v; [reflexivity|]. simpl. rewrite IH. reflexivity. Qed.

Lemma columns_sizes : forall (A : Type) n d (v : list A), (n * d <= length v)%nat ->
    Forall (fun c => length c = n) (columns n d v).
Proof.
  intros A n d. induction d as [|d IH]; intros v H; simpl; constructor.
  - rewrite firstn_length. lia.
  - apply IH. rewrite skipn_length. lia.
Qed.

Lemma nth_firstn_lt : forall (A : Type) n i (v : list A) d, (i < n)%nat -> nth i (firstn n v) d = nth i v d.
Proof.
  intros A n. induction n as [|n IH]; intros i v d H; [lia|]. destruct v as [|a v]; [reflexivity|].
  destruct i as [|i]; [reflexivity|]. simpl. apply IH. lia.
Qed.

Lemma nth_skipn_add : forall (A : Type) n i (v : list A) d, nth i (skipn n v) d = nth (n + i) v d.
Proof.
  intros A n. induction n as [|n IH]; intros i v d; [reflexivity|]. destruct v as [|a v]; simpl; [destruct i; reflexivity|].
  apply IH.
Qed.

Lemma columns_nth : forall (A : Type) n deg (v : list A) d i j, (i < n)%nat -> (j < deg)%nat ->
    nth i (nth j (columns n deg v) []) d = nth (j * n + i) v d.
Proof.
  intros A n deg. induction deg as [|deg IH]; intros v d i j Hi Hj; [lia|]. cbn [columns].
  destruct j as [|j].
  - cbn [nth Nat.mul Nat.add]. apply nth_firstn_lt, Hi.
  - cbn [nth]. rewrite IH by lia. rewrite nth_skipn_add. f_equal. simpl. lia.
Qed.

Lemma qsum_combine : forall F env (es : list expr) (vs : list Q), length es = length vs ->
    qsum (map (fun bv => eval F env (fst bv) * snd bv) (combine es vs)) ==
    terms (fun j => eval F env (nth j es (EConst 0)) * nth j vs 0) (length es).
Proof.
  intros F env es vs H. unfold terms.
  assert (E : map (fun bv => eval F env (fst bv) * snd bv) (combine es vs) =
              map (fun j => eval F env (nth j es (EConst 0)) * nth j vs 0) (seq 0 (length es))).
  { revert vs H. induction es as [|e es IH]; intros [|v vs] H; simpl in *; try discriminate; [reflexivity|].
    f_equal. rewrite <- seq_shift, map_map. apply IH. lia. }
  rewrite E. reflexivity.
Qed.

Lemma w_C07_one_at_own_zero_at_others :
  forall F env points degree z tau,
    let pts := interpolation_points points degree z in
    let basis := util_basis points tau degree z in
    distinct pts ->
    length basis = length pts /\
    forall j k, (j < length pts)%nat -> (k < length pts)%nat -> (env tau == nth k pts 0)%Q ->
      (eval F env (nth j basis (EConst 0)) == if Nat.eqb j k then 1 else 0)%Q.
Proof.
  intros F env points degree z tau pts basis Hd. unfold basis. rewrite util_basis_over. fold pts.
  split; [apply basis_length|]. intros j k Hj Hk Ht. destruct (Nat.eqb_spec j k) as [<-|Hne].
  - apply basis_own; assumption.
  - eapply basis_other; eassumption.
Qed.

Lemma w_C07_interpolates :
  forall F env points degree z tau (values : list Q) k,
    let pts := interpolation_points points degree z in
    distinct pts -> length values = length pts -> (k < length pts)%nat ->
    (env tau == nth k pts 0)%Q ->
    (qsum (map (fun bv => eval F env (fst bv) * snd bv)
               (combine (util_basis points tau degree z) values)) == nth k values 0)%Q.
Proof.
  intros F env points degree z tau values k pts Hd Hl Hk Ht. rewrite util_basis_over. fold pts.
  rewrite qsum_combine by (rewrite basis_length; symmetry; exact Hl). rewrite basis_length.
  apply (interpolation_at_point F env tau pts (fun j => nth j values 0%Q)); assumption.
Qed.

Lemma w_C07_sums_to_one :
  forall F env points degree z tau,
    let pts := interpolation_points points degree z in
    distinct pts -> pts <> [] ->
    (qsum (map (eval F env) (util_basis points tau degree z)) == 1)%Q.
Proof.
  intros F env points degree z tau pts Hd Hne. rewrite util_basis_over. apply basis_sums_to_one; assumption.
Qed.

Lemma w_C07_reproduces_polynomials :
  forall F env points degree z tau (c : list Q),
    let pts := interpolation_points points degree z in
    distinct pts -> (length c <= length pts)%nat ->
    (qsum (map (fun bv => eval F env (fst bv) * snd bv)
               (combine (util_basis points tau degree z) (map (poly c) pts))) == poly c (env tau))%Q.
Proof.
  intros F env points degree z tau c pts Hd Hl. rewrite util_basis_over. fold pts.
  rewrite qsum_combine by (rewrite basis_length, map_length; reflexivity). rewrite basis_length.
  rewrite <- (interpolation_reproduces F env tau pts c Hd Hl). apply terms_ext.
  intros j Hj. rewrite (nth_indep _ _ (poly c 0)) by (rewrite map_length; exact Hj). rewrite map_nth. reflexivity.
Qed.

Lemma w_C07_method_basis :
  forall points degree tau,
    length (points degree) = degree ->
    method_basis points tau degree 0 = util_basis points tau degree true /\
    method_basis points tau degree 1 = util_basis points tau degree false.
Proof.
  intros points degree tau H. rewrite !util_basis_over. split; [apply method_basis_zero, H | apply method_basis_one, H].
Qed.

Lemma w_C08_parameter_count :
  forall points tau size degree first z,
    let par := snd (create_polynomial_approximation points tau size degree first z) in
    length par = (size * if z && (1 <? degree) then degree + 1 else degree)%nat /\ NoDup par.
Proof. intros. split; [apply vec_points_length | apply vec_points_NoDup]. Qed.

Lemma w_C08_parameter_layout :
  forall F env points tau size degree first z i j,
    let pts := interpolation_points points degree z in
    let (pol, par) := create_polynomial_approximation points tau size degree first z in
    (1 < degree)%nat -> length (points degree) = degree -> distinct pts ->
    (i < size)%nat -> (j < length pts)%nat -> (env tau == nth j pts 0)%Q ->
    length pol = size /\
    (eval F env (nth i pol (EConst 0)) == env (nth (j * size + i) par 0%nat))%Q.
Proof.
  intros F env points tau size degree first z i j pts. unfold create_polynomial_approximation.
  intros Hd1 Hl Hd Hi Hj Ht.
  assert (E1 : (1 <? degree) = true) by (apply Nat.ltb_lt; exact Hd1).
  assert (E2 : (degree =? 1) = false) by (apply Nat.eqb_neq; lia).
  rewrite E1, E2, andb_true_r.
  set (n := if z then (degree + 1)%nat else degree).
  assert (Hn : n = length pts).
  { unfold n, pts, interpolation_points. destruct z; simpl; rewrite Hl; lia. }
  clearbody n. subst n. assert (Hne : length pts <> 0%nat) by lia.
  split; [apply combination_length, Hne|].
  rewrite combination_nth by assumption. rewrite vec_points_nth by assumption.
  rewrite util_basis_over. fold pts.
  apply (interpolation_at_point F env tau pts (fun j => env (point_sym first (length pts) i j))); assumption.
Qed.

Lemma w_C08_degree_one_constant :
  forall F env points tau size first z i,
    let (pol, par) := create_polynomial_approximation points tau size 1 first z in
    length pol = size /\ length par = size /\
    ((i < size)%nat -> (eval F env (nth i pol (EConst 0)) == env (nth i par 0%nat))%Q).
Proof.
  intros F env points tau size first z i. unfold create_polynomial_approximation.
  rewrite andb_false_r. change (1 =? 1)%nat with true. cbv iota.
  split; [rewrite map_length, seq_length; reflexivity|]. split; [rewrite vec_points_length; lia|].
  intros Hi. pose proof (vec_points_nth first size 1 i 0 0%nat Hi (le_n 1)) as E. cbn [Nat.mul Nat.add] in E.
  rewrite E. rewrite (nth_indep _ _ (EVar (point_sym first 1 0 0))) by (rewrite map_length, seq_length; exact Hi).
  rewrite (map_nth (fun i0 => EVar (point_sym first 1 i0 0))), seq_nth by exact Hi. reflexivity.
Qed.

Lemma w_C08_method_approximation :
  forall points tau size degree first z,
    length (points degree) = degree -> (0 < degree)%nat -> (0 < size)%nat \/ z = false \/ degree = 1%nat ->
    create_variable_polynomial_approximation points tau size degree first z =
    Ok (create_polynomial_approximation points tau size degree first z).
Proof.
  intros points tau size degree first z Hl Hd Hs.
  unfold create_variable_polynomial_approximation, create_polynomial_approximation.
  destruct (Nat.eqb_spec degree 1) as [->|Hd1].
  - rewrite andb_false_r. reflexivity.
  - assert (E1 : (1 <? degree) = true) by (apply Nat.ltb_lt; lia). rewrite E1, andb_true_r.
    rewrite util_basis_over. destruct z.
    + destruct Hs as [Hs|[Hs|Hs]]; [|discriminate|contradiction].
      destruct (Nat.eqb_spec size 0) as [->|_]; [lia|]. rewrite method_basis_zero by exact Hl. reflexivity.
    + rewrite method_basis_one by exact Hl. reflexivity.
Qed.

Lemma w_C08_empty_vector_refuted :
  forall points tau degree first, (1 < degree)%nat ->
    create_variable_polynomial_approximation points tau 0 degree first true = Raise CasadiError.
Proof.
  intros points tau degree first H. unfold create_variable_polynomial_approximation.
  destruct (Nat.eqb_spec degree 1); [lia | reflexivity].
Qed.

Lemma w_C08_unvec :
  forall (A : Type) (v : list A) degree size,
    (0 < degree)%nat -> length v = (size * degree)%nat ->
    exists m, unvec v degree = Ok m /\ length m = degree /\ concat m = v /\
      Forall (fun c => length c = size) m /\
      forall d i j, (i < size)%nat -> (j < degree)%nat -> nth i (nth j m []) d = nth (j * size + i) v d.
Proof.
  intros A v degree size Hd Hl. unfold unvec.
  destruct (Nat.eqb_spec degree 0); [lia|].
  assert (E : (length v / degree = size)%nat) by (rewrite Hl; apply Nat.div_mul; lia).
  rewrite E, Hl, Nat.eqb_refl. exists (columns size degree v). split; [reflexivity|].
  split; [apply columns_count|]. split; [apply concat_columns, Hl|].
  split; [apply columns_sizes; lia|]. intros d i j Hi Hj. apply columns_nth; assumption.
Qed.

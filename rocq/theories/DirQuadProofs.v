(** Integration of polynomials with weights at the collocation points. *)
From Coq Require Import String Lqa.
From Verif Require Import Base BaseProofs ExprModel NlpModel NlpSpec SysModel SysSpec OcpModel OcpSpec
  LagModel LagSpec LagProofs DiscModel DiscSpec ColSpec ColPolyProofs DirSpec.
Local Open Scope list_scope.
Local Open Scope Q_scope.

(** ** Primitives *)

Fixpoint over_from (n : nat) (c : list Q) : list Q :=
  match c with
  | [] => []
  | a :: c' => (a / inject_Z (Z.of_nat n)) :: over_from (S n) c'
  end.
Definition primitive (start : Q) (c : list Q) : list Q := start :: over_from 1 c.
Definition increase (c : list Q) : Q := poly (over_from 1 c) 1.

Lemma over_from_length : forall c n, length (over_from n c) = length c.
Proof. induction c as [|a c IH]; intros n; [reflexivity|]. cbn. rewrite IH. reflexivity. Qed.
Lemma positive_nonzero : forall n, (0 < n)%nat -> ~ inject_Z (Z.of_nat n) == 0.
Proof.
  intros n Hn E. unfold Qeq in E. cbn [Qnum Qden inject_Z] in E. lia.
Qed.
Lemma scaled_over : forall c n t, (0 < n)%nat -> poly (scaled_from n (over_from n c)) t == poly c t.
Proof.
  induction c as [|a c IH]; intros n t Hn; [reflexivity|]. cbn [over_from scaled_from poly].
  rewrite IH by lia. field. apply positive_nonzero, Hn.
Qed.
Lemma primitive_derivative : forall a c t, poly (derivative (primitive a c)) t == poly c t.
Proof. intros a c t. cbn [primitive derivative]. apply scaled_over. lia. Qed.
Lemma primitive_start : forall a c, poly (primitive a c) 0 == a.
Proof. intros a c. cbn [primitive poly]. ring. Qed.

Lemma over_padd : forall a b n t, poly (over_from n (padd a b)) t == poly (over_from n a) t + poly (over_from n b) t.
Proof.
  induction a as [|x a IH]; intros [|y b] n t; cbn [padd over_from poly]; try ring. rewrite IH. unfold Qdiv. ring.
Qed.
Lemma over_pscale : forall k a n t, poly (over_from n (pscale k a)) t == k * poly (over_from n a) t.
Proof.
  intros k a. induction a as [|x a IH]; intros n t; [cbn; ring|]. cbn [pscale map over_from poly].
  change (map (Qmult k) a) with (pscale k a). rewrite IH. unfold Qdiv. ring.
Qed.
Lemma over_zero : forall c n t, Forall (fun a => a == 0) c -> poly (over_from n c) t == 0.
Proof.
  intros c n t H. revert n. induction H as [|a c Ha H IH]; intros n; [reflexivity|]. cbn [over_from poly].
  rewrite IH, Ha. unfold Qdiv. ring.
Qed.
Lemma increase_same : forall c d, (forall t, poly c t == poly d t) -> increase c == increase d.
Proof.
  intros c d H. assert (Z : increase (padd c (pscale (-1) d)) == 0).
  { apply over_zero, zero_everywhere. intros t. rewrite poly_padd, poly_pscale, H. ring. }
  unfold increase in *. rewrite over_padd, over_pscale in Z. lra.
Qed.
Lemma over_scaled : forall c n t, (0 < n)%nat -> poly (over_from n (scaled_from n c)) t == poly c t.
Proof.
  induction c as [|a c IH]; intros n t Hn; [reflexivity|]. cbn [over_from scaled_from poly].
  rewrite IH by lia. field. apply positive_nonzero, Hn.
Qed.
Lemma increase_derivative : forall c, poly c 1 - poly c 0 == increase (derivative c).
Proof.
  intros [|a c]; [reflexivity|]. unfold increase. cbn [derivative poly]. rewrite over_scaled by lia. ring.
Qed.
Lemma derivative_length : forall c, (length (derivative c) <= length c - 1)%nat.
Proof.
  assert (L : forall c n, length (scaled_from n c) = length c).
  { induction c as [|a c IH]; intros n; [reflexivity|]. cbn. rewrite IH. reflexivity. }
  intros [|a c]; cbn; [lia|]. rewrite L. lia.
Qed.

(** ** Weights *)

Fixpoint mixture (v : nat -> Q) (e : nat -> list Q) (js : list nat) : list Q :=
  match js with
  | [] => []
  | j :: js' => padd (pscale (v j) (e j)) (mixture v e js')
  end.
Lemma mixture_poly : forall v e js t, poly (mixture v e js) t == qsum (map (fun j => v j * poly (e j) t) js).
Proof.
  intros v e js t. induction js as [|j js IH]; [reflexivity|]. cbn [mixture map qsum].
  rewrite poly_padd, poly_pscale, IH. reflexivity.
Qed.
Lemma mixture_increase : forall v e js, increase (mixture v e js) == qsum (map (fun j => v j * increase (e j)) js).
Proof.
  intros v e js. induction js as [|j js IH]; [reflexivity|]. cbn [mixture map qsum]. rewrite <- IH.
  unfold increase. rewrite over_padd, over_pscale. reflexivity.
Qed.
Lemma mixture_length : forall v e js d, (forall j, In j js -> (length (e j) <= d)%nat) -> (length (mixture v e js) <= d)%nat.
Proof.
  intros v e js d H. induction js as [|j js IH]; [cbn; lia|]. cbn [mixture]. rewrite padd_length, pscale_length.
  apply Nat.max_lub; [apply H; left; reflexivity | apply IH; intros i Hi; apply H; right; exact Hi].
Qed.

Lemma finite_choice : forall (A : Type) (a : A) (R : nat -> A -> Prop) n, (forall j, (j < n)%nat -> exists x, R j x) ->
    exists f, forall j, (j < n)%nat -> R j (f j).
Proof.
  intros A a R n H. induction n as [|n IH]; [exists (fun _ => a); intros; lia|].
  destruct IH as [f Hf]; [intros j Hj; apply H; lia|]. destruct (H n (Nat.lt_succ_diag_r n)) as [x Hx].
  exists (fun j => if Nat.eqb j n then x else f j). intros j Hj. destruct (Nat.eqb_spec j n) as [->|Ne]; [exact Hx|].
  apply Hf. lia.
Qed.

Lemma combine_terms : forall (a b : list Q) (f : Q * Q -> Q), length b = length a ->
    map f (combine a b) = map (fun j => f (nth j a 0, nth j b 0)) (seq 0 (length a)).
Proof.
  induction a as [|x a IH]; intros [|y b] f L; try discriminate; [reflexivity|]. cbn [combine map length seq nth].
  f_equal. rewrite IH by (cbn in L; lia). rewrite <- seq_shift, map_map. reflexivity.
Qed.

Theorem rule_exists : forall pts, distinct pts -> exists b, exact_rule pts b.
Proof.
  intros pts Hd.
  destruct (finite_choice (list Q) [] (fun j e => (length e <= length pts)%nat /\
      forall i, (i < length pts)%nat -> poly e (nth i pts 0) == if Nat.eqb i j then 1 else 0) (length pts)) as [e He].
  { intros j _. destruct (interpolant pts (fun i => if Nat.eqb i j then 1 else 0) Hd) as [c [Lc Hc]]. exists c. auto. }
  exists (map (fun j => increase (e j)) (seq 0 (length pts))). split; [rewrite map_length, seq_length; reflexivity|].
  intros c Lc. rewrite increase_derivative.
  rewrite combine_terms by (rewrite map_length, seq_length; reflexivity). cbn [fst snd].
  rewrite (increase_same (derivative c) (mixture (fun j => poly (derivative c) (nth j pts 0)) e (seq 0 (length pts)))).
  - rewrite mixture_increase. apply (terms_ext (fun j => poly (derivative c) (nth j pts 0) * increase (e j))
      (fun j => nth j (map (fun j0 => increase (e j0)) (seq 0 (length pts))) 0 * poly (derivative c) (nth j pts 0))).
    intros j Hj. rewrite (nth_indep (map (fun j0 => increase (e j0)) (seq 0 (length pts))) 0 (increase (e 0%nat))) by (rewrite map_length, seq_length; exact Hj).
    rewrite (map_nth (fun j0 => increase (e j0))), seq_nth by exact Hj. cbn [Nat.add]. ring.
  - apply (interpolation_unique pts); [exact Hd | | |].
    + pose proof (derivative_length c). lia.
    + apply mixture_length. intros j Hj. apply in_seq in Hj. apply He. lia.
    + intros r Hr. apply (In_nth _ _ 0) in Hr. destruct Hr as [i [Hi <-]]. rewrite mixture_poly. symmetry.
      fold (terms (fun j => poly (derivative c) (nth j pts 0) * poly (e j) (nth i pts 0)) (length pts)).
      rewrite (terms_single _ _ i Hi).
      * rewrite (proj2 (He i Hi) i Hi), Nat.eqb_refl. ring.
      * intros j Hj Ne. rewrite (proj2 (He j Hj) i Hi). destruct (Nat.eqb_spec i j); [congruence|]. ring.
Qed.

(** There is only one such rule. *)
Theorem rule_unique : forall pts b b', distinct pts -> exact_rule pts b -> exact_rule pts b' ->
    forall j, nth j b 0 == nth j b' 0.
Proof.
  intros pts b b' Hd [L H] [L' H'] j. destruct (Nat.lt_ge_cases j (length pts)) as [Hj|Hj].
  2:{ rewrite !nth_overflow by lia. reflexivity. }
  destruct (interpolant pts (fun i => if Nat.eqb i j then 1 else 0) Hd) as [c [Lc Hc]].
  assert (V : forall w, length w = length pts ->
      qsum (map (fun tb => snd tb * poly (derivative (primitive 0 c)) (fst tb)) (combine pts w)) == nth j w 0).
  { intros w Lw. rewrite combine_terms by exact Lw. cbn [fst snd].
    fold (terms (fun i => nth i w 0 * poly (derivative (primitive 0 c)) (nth i pts 0)) (length pts)).
    rewrite (terms_single _ _ j Hj).
    - rewrite primitive_derivative, (Hc j Hj), Nat.eqb_refl. ring.
    - intros i Hi Ne. rewrite primitive_derivative, (Hc i Hi). destruct (Nat.eqb_spec i j); [congruence|]. ring. }
  assert (Lp : (length (primitive 0 c) <= S (length pts))%nat) by (cbn; rewrite over_from_length; lia).
  rewrite <- (V b L), <- (V b' L'), <- (H _ Lp), <- (H' _ Lp). reflexivity.
Qed.

(** ** Accumulated quantities *)

(** Polynomials with given derivatives at the points, each continuing the one before. *)
Lemma accumulated : forall pts (rate : nat -> Q -> Q) start n, distinct pts ->
    exists g, (forall el, (length (g el) <= S (length pts))%nat) /\ poly (g 0%nat) 0 == start /\
      (forall el, (S el < S n)%nat -> poly (g el) 1 == poly (g (S el)) 0) /\
      (forall el tau, (el < S n)%nat -> In tau pts -> poly (derivative (g el)) tau == rate el tau).
Proof.
  intros pts rate start n Hd.
  assert (One : forall el a, exists c, (length c <= S (length pts))%nat /\ poly c 0 == a /\
                  forall tau, In tau pts -> poly (derivative c) tau == rate el tau).
  { intros el a. destruct (interpolant pts (fun i => rate el (nth i pts 0)) Hd) as [c [Lc Hc]]. exists (primitive a c).
    split; [cbn; rewrite over_from_length; lia|]. split; [apply primitive_start|]. intros tau Ht.
    apply (In_nth _ _ 0) in Ht. destruct Ht as [i [Hi <-]]. rewrite primitive_derivative. apply Hc, Hi. }
  induction n as [|n IH].
  - destruct (One 0%nat start) as [c [A [B C]]]. exists (fun _ => c). split; [intros; exact A|]. split; [exact B|].
    split; [intros; lia|]. intros el tau Hel. assert (el = 0%nat) by lia. subst el. apply C.
  - destruct IH as [g [A [B [C D]]]]. destruct (One (S n) (poly (g n) 1)) as [c [A' [B' C']]].
    exists (fun el => if Nat.eqb el (S n) then c else g el). split; [|split; [|split]].
    + intros el. destruct (Nat.eqb el (S n)); [exact A' | apply A].
    + exact B.
    + intros el Hel. destruct (Nat.eqb_spec el (S n)); [lia|]. destruct (Nat.eqb_spec (S el) (S n)) as [E|E].
      * injection E as ->. rewrite B'. reflexivity.
      * apply C. lia.
    + intros el tau Hel Ht. destruct (Nat.eqb_spec el (S n)) as [->|E]; [apply C', Ht|]. apply D; [lia | exact Ht].
Qed.

Lemma telescope : forall (g : nat -> list Q) n, (forall el, (S el < S n)%nat -> poly (g el) 1 == poly (g (S el)) 0) ->
    poly (g n) 1 == poly (g 0%nat) 0 + qsum (map (fun el => poly (g el) 1 - poly (g el) 0) (seq 0 (S n))).
Proof.
  intros g n. induction n as [|n IH]; intros H; [cbn; ring|].
  fold (terms (fun el => poly (g el) 1 - poly (g el) 0) (S (S n))). rewrite terms_S.
  assert (E := IH (fun el Hel => H el ltac:(lia))). fold (terms (fun el => poly (g el) 1 - poly (g el) 0) (S n)) in E.
  pose proof (H n ltac:(lia)) as J. lra.
Qed.

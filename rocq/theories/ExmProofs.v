From Coq Require Import QArith Lqa.
From Verif Require Import Base BaseProofs StoModel StoSpec StoProofs StoBasisProofs ExmModel ExmSpec.
Local Open Scope list_scope.
Local Open Scope nat_scope.

(** * Vectors *)
Lemma same_iff : forall a b, same_vector a b <-> length a = length b /\ forall i, i < length a -> (nth i a 0 == nth i b 0)%Q.
Proof.
  unfold same_vector. induction a as [|x a IH]; intros [|y b]; split; intros H.
  - split; [reflexivity|]. intros i L. cbn in L. lia.
  - constructor.
  - inversion H.
  - destruct H as [H _]. discriminate H.
  - inversion H.
  - destruct H as [H _]. discriminate H.
  - inversion H as [|? ? ? ? E F]; subst. apply IH in F. destruct F as [L F]. split; [cbn; congruence|].
    intros [|i] K; [exact E|]. apply F. cbn in K. lia.
  - destruct H as [L F]. constructor; [exact (F 0 (Nat.lt_0_succ _))|]. apply IH. split; [cbn in L; congruence|].
    intros i K. apply (F (S i)). cbn. lia.
Qed.

Lemma same_refl : forall a, same_vector a a.
Proof. induction a; constructor; [reflexivity|assumption]. Qed.
Lemma same_sym : forall a b, same_vector a b -> same_vector b a.
Proof. intros a b H. induction H; constructor; [symmetry; assumption|assumption]. Qed.
Lemma same_trans : forall a b c, same_vector a b -> same_vector b c -> same_vector a c.
Proof.
  intros a b c H. revert c. induction H as [|x y a b E H IH]; intros c G; inversion G; subst; constructor.
  - rewrite E. assumption.
  - apply IH. assumption.
Qed.
Lemma same_length : forall a b, same_vector a b -> length a = length b.
Proof. intros a b H. apply same_iff in H. exact (proj1 H). Qed.

Lemma plus_length : forall a b n, length a = n -> length b = n -> length (plus a b) = n.
Proof. intros. unfold plus. rewrite map_length, combine_length. lia. Qed.
Lemma scaled_length : forall c a, length (scaled c a) = length a.
Proof. intros. apply map_length. Qed.

Lemma plus_same : forall a a' b b', same_vector a a' -> same_vector b b' -> same_vector (plus a b) (plus a' b').
Proof.
  intros a a' b b' H. revert b b'. unfold plus. induction H as [|x y a a' E H IH]; intros b b' G; [constructor|].
  destruct G as [|u v b b' F G]; [constructor|]. cbn [combine map fst snd]. constructor; [rewrite E, F; reflexivity|]. apply IH. exact G.
Qed.
Lemma scaled_same : forall c a a', same_vector a a' -> same_vector (scaled c a) (scaled c a').
Proof. intros c a a' H. induction H; constructor; [rewrite H; reflexivity|assumption]. Qed.

Lemma plus_nth : forall a b n i, length a = n -> length b = n -> (nth i (plus a b) 0 == nth i a 0 + nth i b 0)%Q.
Proof. intros a b n i Ha Hb. apply (add_vec_nth a b i). congruence. Qed.
Lemma scaled_nth : forall c a i, (nth i (scaled c a) 0 == c * nth i a 0)%Q.
Proof. intros c. induction a as [|x a IH]; intros [|i]; cbn; try ring. apply IH. Qed.

(** * Products *)
Lemma dot_same : forall r x y, same_vector x y -> (dot r x == dot r y)%Q.
Proof.
  unfold dot. intros r x y H. revert r. induction H as [|a b x y E H IH]; intros [|q r]; cbn; try reflexivity.
  rewrite E. rewrite (IH r). reflexivity.
Qed.
Lemma dot_plus : forall r x y, length x = length y -> (dot r (plus x y) == dot r x + dot r y)%Q.
Proof.
  unfold dot, plus. induction r as [|q r IH]; intros [|a x] [|b y] L; cbn in *; try discriminate L; try ring.
  rewrite IH by congruence. ring.
Qed.
Lemma dot_scale : forall r c x, (dot r (scaled c x) == c * dot r x)%Q.
Proof. unfold dot, scaled. induction r as [|q r IH]; intros c [|a x]; cbn; try ring. rewrite IH. ring. Qed.

Lemma mat_linear : forall n a, length a = n -> linear n (mat_vec a).
Proof.
  intros n a L. unfold mat_vec. constructor.
  - intros x _. rewrite map_length. exact L.
  - intros x y _ S. clear L. induction a as [|r a IH]; constructor; [apply dot_same; exact S|exact IH].
  - intros x y Hx Hy. clear L. induction a as [|r a IH]; [constructor|]. unfold plus. cbn [map combine fst snd].
    constructor; [apply dot_plus; congruence|exact IH].
  - intros c x Hx. clear L. induction a as [|r a IH]; constructor; [apply dot_scale|exact IH].
Qed.

(** * The parameter is the matrix *)
Lemma nth_concat : forall n (l : list (list Q)) j i, Forall (fun b => length b = n) l -> i < n ->
  nth (j * n + i) (concat l) 0%Q = nth i (nth j l []) 0%Q.
Proof.
  intros n. induction l as [|b l IH]; intros j i F K.
  - destruct j; cbn; destruct i; try reflexivity; destruct (_ + _); reflexivity.
  - inversion F as [|? ? B F']; subst. cbn [concat]. destruct j as [|j].
    + cbn [Nat.mul Nat.add nth]. apply app_nth1. exact K.
    + rewrite app_nth2 by (cbn; lia). cbn [nth]. rewrite <- (IH j i F' K). f_equal. cbn. lia.
Qed.

Lemma map_seq_nth : forall (A B : Type) (f : A -> B) (d : A) l n, length l = n -> map (fun i => f (nth i l d)) (seq 0 n) = map f l.
Proof.
  intros A B f d l n L. subst n. induction l as [|x l IH]; [reflexivity|]. cbn [length seq map nth]. f_equal.
  rewrite <- IH. rewrite <- seq_shift, map_map. reflexivity.
Qed.

Lemma transpose_shape : forall n a, square n a -> 0 < n -> length (transpose a) = n /\ Forall (fun b => length b = n) (transpose a) /\
  forall i j, i < n -> j < n -> nth i (nth j (transpose a) []) 0%Q = nth j (nth i a []) 0%Q.
Proof.
  intros n a [L R0] P. assert (R : forall r, In r a -> length r = n) by (apply Forall_forall; exact R0). assert (C : columns a = n).
  { destruct a as [|r a]; [cbn in L; lia|]. cbn. apply R. left. reflexivity. }
  unfold transpose. rewrite C. split; [rewrite map_length, seq_length; reflexivity|]. split.
  - apply Forall_forall. intros b I. apply in_map_iff in I. destruct I as (j & E & _). subst b. rewrite map_length. exact L.
  - intros i j Hi Hj. rewrite (nth_indep _ [] ((fun j => map (fun r => nth j r 0%Q) a) 0)) by (rewrite map_length, seq_length; exact Hj).
    rewrite (map_nth (fun j => map (fun r => nth j r 0%Q) a)). rewrite seq_nth by exact Hj. cbn [Nat.add].
    rewrite (nth_indep _ 0%Q ((fun r => nth j r 0%Q) [])) by (rewrite map_length; lia). apply (map_nth (fun r => nth j r 0%Q)).
Qed.

Lemma round_trip : forall n a, square n a -> 0 < n -> matrix_of n (vec_of a) = a.
Proof.
  intros n a Sq P. destruct (transpose_shape n a Sq P) as (L & F & N). destruct Sq as [La R0]. assert (R : forall r, In r a -> length r = n) by (apply Forall_forall; exact R0).
  unfold matrix_of, vec_of.
  transitivity (map (fun i => (fun r : list Q => map (fun j => nth j r 0%Q) (seq 0 n)) (nth i a [])) (seq 0 n)).
  - apply map_ext_in. intros i Ii. apply in_seq in Ii. apply map_ext_in. intros j Ij. apply in_seq in Ij.
    rewrite nth_concat by (assumption || lia). apply N; lia.
  - rewrite (map_seq_nth _ _ (fun r : list Q => map (fun j => nth j r 0%Q) (seq 0 n)) [] a n La).
    rewrite <- (map_id a) at 2. apply map_ext_in. intros r Ir. pose proof (map_seq_nth _ _ (fun x : Q => x) 0%Q r n (R r Ir)) as E.
    cbn beta in E. rewrite E. apply map_id.
Qed.

(** * Combinations *)
Fixpoint comb (n : nat) (l : list (list Q)) (v : list Q) : list Q :=
  match l, v with
  | x :: l', c :: v' => plus (scaled c x) (comb n l' v')
  | _, _ => repeat 0%Q n
  end.

Lemma comb_length : forall n l v, Forall (fun x => length x = n) l -> length (comb n l v) = n.
Proof.
  intros n. induction l as [|x l IH]; intros v F; [apply repeat_length|]. inversion F as [|? ? X F']; subst.
  destruct v as [|c v]; [apply repeat_length|]. cbn [comb]. apply plus_length; [apply scaled_length|apply IH; exact F'].
Qed.

Lemma comb_nth : forall n l v i, Forall (fun x => length x = n) l -> (nth i (comb n l v) 0 == dot (map (fun x => nth i x 0%Q) l) v)%Q.
Proof.
  intros n. induction l as [|x l IH]; intros v i F.
  - cbn [comb]. assert (Z : nth i (repeat 0%Q n) 0%Q = 0%Q) by (destruct (Nat.lt_ge_cases i n); [apply nth_repeat|apply nth_overflow; rewrite repeat_length; assumption]).
    rewrite Z. destruct v; reflexivity.
  - inversion F as [|? ? X F']; subst. destruct v as [|c v].
    + cbn [comb]. assert (Z : nth i (repeat 0%Q (length x)) 0%Q = 0%Q) by (destruct (Nat.lt_ge_cases i (length x)); [apply nth_repeat|apply nth_overflow; rewrite repeat_length; assumption]).
      rewrite Z. reflexivity.
    + cbn [comb]. rewrite (plus_nth _ _ (length x)); [|apply scaled_length|apply comb_length; exact F'].
      rewrite scaled_nth, (IH v i F'). unfold dot. cbn [map combine fold_right fst snd]. ring.
Qed.

Lemma eye_rows : forall n, length (eye n) = n /\ Forall (fun x => length x = n) (eye n).
Proof.
  intros n. unfold eye. split; [rewrite map_length, seq_length; reflexivity|]. apply Forall_forall. intros x I.
  apply in_map_iff in I. destruct I as (i & E & _). subst x. rewrite map_length, seq_length. reflexivity.
Qed.

Lemma eye_column : forall n i, i < n -> map (fun x => nth i x 0%Q) (eye n) = map (fun k => if k =? i then 1%Q else 0%Q) (seq 0 n).
Proof.
  intros n i H. unfold eye. rewrite map_map. apply map_ext. intros k.
  rewrite (nth_indep _ 0%Q ((fun j => if k =? j then 1%Q else 0%Q) 0)) by (rewrite map_length, seq_length; exact H).
  rewrite (map_nth (fun j => if k =? j then 1%Q else 0%Q)). rewrite seq_nth by exact H. reflexivity.
Qed.

Lemma comb_eye : forall n v, length v = n -> same_vector (comb n (eye n) v) v.
Proof.
  intros n v L. destruct (eye_rows n) as [El Ef]. apply same_iff. rewrite comb_length by exact Ef. split; [congruence|].
  intros i H. rewrite comb_nth by exact Ef. rewrite eye_column by exact H.
  rewrite (dot_sum _ _ n) by (rewrite ?map_length, ?seq_length; auto).
  rewrite <- (qsum_single n i (fun k => nth k v 0%Q) H). apply qsum_ext. intros k K.
  rewrite (nth_indep _ 0%Q ((fun k => if k =? i then 1%Q else 0%Q) 0)) by (rewrite map_length, seq_length; exact K).
  rewrite (map_nth (fun k => if k =? i then 1%Q else 0%Q)). rewrite seq_nth by exact K. reflexivity.
Qed.

(** * The exponential *)
Lemma map_calls_ok : forall (A B : Type) (f : A -> res B) l, (forall a, In a l -> exists b, f a = Ok b) ->
  exists bs, map_calls f l = Ok bs /\ Forall2 (fun a b => f a = Ok b) l bs.
Proof.
  intros A B f. induction l as [|a l IH]; intros H; [exists []; split; [reflexivity|constructor]|].
  destruct (H a (or_introl eq_refl)) as [b E]. destruct IH as (bs & M & F); [intros a' I; apply H; right; exact I|].
  exists (b :: bs). cbn [map_calls]. rewrite E, M. split; [reflexivity|constructor; assumption].
Qed.

Section Flow.
  Variable integrate : ode_rhs -> Q -> list Q -> list Q -> res (list Q).
  Hypothesis C : linear_integrator integrate.

  Lemma comb_flow : forall n rhs p, linear n (rhs p) -> forall l cs, Forall (fun x => length x = n) l ->
    Forall2 (fun x c => integrate rhs 1%Q x p = Ok c) l cs ->
    forall v, exists y, integrate rhs 1%Q (comb n l v) p = Ok y /\ same_vector y (comb n cs v) /\ length y = n.
  Proof.
    intros n rhs p Lin.
    assert (Z : exists y, integrate rhs 1%Q (repeat 0%Q n) p = Ok y /\ same_vector y (repeat 0%Q n) /\ length y = n).
    { destruct (li_result _ C n rhs p (repeat 0%Q n) Lin (repeat_length _ _)) as (y & E & Ly).
      destruct (li_result _ C n rhs p (scaled 0 (repeat 0%Q n)) Lin) as (z & Ez & Lz); [rewrite scaled_length; apply repeat_length|].
      exists y. split; [exact E|]. split; [|exact Ly].
      pose proof (li_scaled _ C n rhs p 0%Q _ _ _ Lin (repeat_length _ _) E Ez) as S.
      assert (S2 : same_vector y z).
      { apply (li_same _ C n rhs p rhs p (repeat 0%Q n) (scaled 0 (repeat 0%Q n)) y z Lin Lin); try assumption.
        - intros. apply same_refl. - apply repeat_length.
        - clear. unfold scaled. induction n; constructor; [reflexivity|assumption]. }
      eapply same_trans; [exact S2|]. eapply same_trans; [exact S|]. clear - Ly. subst n. unfold scaled.
      induction y; constructor; [ring|assumption]. }
    intros l cs F G. induction G as [|x c l cs E G IH]; intros v; [exact Z|]. inversion F as [|? ? X F']; subst.
    destruct v as [|k v]; [exact Z|]. cbn [comb]. destruct (IH F' v) as (y & Ey & Sy & Ly).
    destruct (li_result _ C (length x) rhs p (scaled k x) Lin (scaled_length _ _)) as (s & Es & Ls).
    destruct (li_result _ C (length x) rhs p (plus (scaled k x) (comb (length x) l v)) Lin) as (z & Ez & Lz).
    { apply plus_length; [apply scaled_length|apply comb_length; exact F']. }
    exists z. split; [exact Ez|]. split; [|exact Lz].
    pose proof (li_plus _ C (length x) rhs p _ _ _ _ _ Lin (scaled_length k x) (comb_length _ l v F') Es Ey Ez) as P.
    eapply same_trans; [exact P|]. apply plus_same; [|exact Sy].
    exact (li_scaled _ C (length x) rhs p k x c s Lin eq_refl E Es).
  Qed.

  Lemma c100_action : forall n a, square n a -> 0 < n ->
    exists e, expm integrate a = Ok e /\ square n e /\
      forall v, length v = n -> exists y, integrate (fun _ x => mat_vec a x) 1%Q v [] = Ok y /\ same_vector (mat_vec e v) y.
  Proof.
    intros n a Sq P. pose proof (round_trip n a Sq P) as RT. destruct Sq as [La R0]. assert (Ra : forall r, In r a -> length r = n) by (apply Forall_forall; exact R0).
    assert (Co : columns a = n). { destruct a as [|r a']; [cbn in La; lia|]. cbn. apply Ra. left. reflexivity. }
    assert (Lin : linear n (expm_rhs n (vec_of a))). { unfold expm_rhs. rewrite RT. apply mat_linear. exact La. }
    assert (LinA : linear n ((fun (_ : list Q) x => mat_vec a x) [])) by (apply mat_linear; exact La).
    destruct (eye_rows n) as [El Ef].
    destruct (map_calls_ok _ _ (fun x0 => integrate (expm_rhs n) 1%Q x0 (vec_of a)) (eye n)) as (cs & M & F2).
    { intros x I. rewrite Forall_forall in Ef. destruct (li_result _ C n (expm_rhs n) (vec_of a) x Lin (Ef x I)) as (y & E & _). exists y. exact E. }
    assert (Lc : length cs = n) by (rewrite <- El; clear -F2; induction F2; cbn; congruence).
    assert (Fc : Forall (fun x => length x = n) cs).
    { clear -F2 Ef C Lin. revert Ef. induction F2 as [|x c l cs E F IH]; intros Ef; constructor; inversion Ef as [|? ? X Ef']; subst.
      - destruct (li_result _ C (length x) (expm_rhs (length x)) (vec_of a) x Lin eq_refl) as (y & E' & L). cbn beta in E. congruence.
      - apply IH. exact Ef'. }
    exists (map (fun i => map (fun c => nth i c 0%Q) cs) (seq 0 n)). split; [|split].
    - unfold expm. rewrite Co, La, Nat.eqb_refl. cbn [negb]. destruct (n =? 0) eqn:Z; [apply Nat.eqb_eq in Z; lia|]. rewrite M. reflexivity.
    - split; [rewrite map_length, seq_length; reflexivity|]. apply Forall_forall. intros r I. apply in_map_iff in I. destruct I as (i & E & _). subst r.
      rewrite map_length. exact Lc.
    - intros v Lv. destruct (comb_flow n (expm_rhs n) (vec_of a) Lin (eye n) cs Ef F2 v) as (y1 & E1 & S1 & L1).
      destruct (li_result _ C n (fun _ x => mat_vec a x) [] v LinA Lv) as (y & E & Ly). exists y. split; [exact E|].
      eapply same_trans with (b := comb n cs v).
      + apply same_iff. unfold mat_vec. rewrite !map_length, seq_length, comb_length by exact Fc. split; [reflexivity|].
        intros i H. rewrite comb_nth by exact Fc. rewrite map_map.
        rewrite (nth_indep _ 0%Q ((fun i => dot (map (fun c => nth i c 0%Q) cs) v) 0)) by (rewrite map_length, seq_length; exact H).
        rewrite (map_nth (fun i => dot (map (fun c => nth i c 0%Q) cs) v)). rewrite seq_nth by exact H. reflexivity.
      + eapply same_trans; [apply same_sym; exact S1|].
        apply (li_same _ C n (expm_rhs n) (vec_of a) (fun _ x => mat_vec a x) [] (comb n (eye n) v) v y1 y Lin LinA); try assumption.
        * intros z _. unfold expm_rhs. rewrite RT. apply same_refl.
        * apply comb_length. exact Ef.
        * apply comb_eye. exact Lv.
  Qed.
End Flow.

Lemma c100_refused : forall integrate a, columns a <> length a \/ a = [] -> expm integrate a = Raise CasadiError.
Proof.
  intros integrate a [H|H].
  - unfold expm. destruct (length a =? columns a) eqn:E; [apply Nat.eqb_eq in E; congruence|reflexivity].
  - subst a. reflexivity.
Qed.

(** * The example *)
Lemma euler_linear : linear_integrator euler.
Proof.
  constructor; unfold euler.
  - intros n rhs p x L X. eexists. split; [reflexivity|]. apply plus_length; [exact X|]. rewrite scaled_length. apply (lin_length _ _ L). exact X.
  - intros n rhs p rhs' p' x x' y y' L L' H X S E E'. injection E as <-. injection E' as <-. apply plus_same; [exact S|].
    apply scaled_same. eapply same_trans; [apply (lin_same _ _ L x x' X S)|]. apply H. rewrite <- (same_length _ _ S). exact X.
  - intros n rhs p x x' y y' z L X X' E E' Ez. injection E as <-. injection E' as <-. injection Ez as <-.
    pose proof (lin_plus _ _ L x x' X X') as S. pose proof (lin_length _ _ L x X) as Lx. pose proof (lin_length _ _ L x' X') as Lx'.
    eapply same_trans; [apply plus_same; [apply same_refl|apply scaled_same; exact S]|].
    apply same_iff. assert (A : length (plus x x') = n) by (apply plus_length; assumption).
    assert (B : length (plus (rhs p x) (rhs p x')) = n) by (apply plus_length; assumption).
    assert (D : length (plus x (scaled 1 (rhs p x))) = n) by (apply plus_length; [|rewrite scaled_length]; assumption).
    assert (D' : length (plus x' (scaled 1 (rhs p x'))) = n) by (apply plus_length; [|rewrite scaled_length]; assumption).
    assert (G : length (scaled 1 (plus (rhs p x) (rhs p x'))) = n) by (rewrite scaled_length; exact B).
    split; [rewrite (plus_length _ _ n A G), (plus_length _ _ n D D'); reflexivity|]. intros i _.
    rewrite (plus_nth _ _ n i A G), scaled_nth, (plus_nth _ _ n i X X'), (plus_nth _ _ n i Lx Lx'), (plus_nth _ _ n i D D').
    rewrite (plus_nth _ _ n i X) by (rewrite scaled_length; exact Lx). rewrite (plus_nth _ _ n i X') by (rewrite scaled_length; exact Lx').
    rewrite !scaled_nth. ring.
  - intros n rhs p c x y z L X E Ez. injection E as <-. injection Ez as <-.
    pose proof (lin_scaled _ _ L c x X) as S. pose proof (lin_length _ _ L x X) as Lx.
    eapply same_trans; [apply plus_same; [apply same_refl|apply scaled_same; exact S]|].
    apply same_iff. assert (A : length (scaled c x) = n) by (rewrite scaled_length; exact X).
    assert (G : length (scaled 1 (scaled c (rhs p x))) = n) by (rewrite !scaled_length; exact Lx).
    assert (B : length (scaled 1 (rhs p x)) = n) by (rewrite scaled_length; exact Lx).
    split; [rewrite scaled_length, (plus_length _ _ n A G), (plus_length _ _ n X B); reflexivity|]. intros i _.
    rewrite (plus_nth _ _ n i A G), !scaled_nth, (plus_nth _ _ n i X B), scaled_nth. ring.
Qed.

(** Proofs about the estimators. *)
From mathcomp Require Import all_ssreflect all_algebra.
From Verif Require Import KalModel KalSpec.
Set Implicit Arguments.
Unset Strict Implicit.
Unset Printing Implicit Defensive.
Import Order.TTheory GRing.Theory Num.Theory.
Local Open Scope ring_scope.

Section Proofs.
Variable F : realFieldType.

(** ** Symmetric and semidefinite matrices *)

Definition psd (n : nat) (M : 'M[F]_n) := forall v : 'cV[F]_n, 0 <= (v^T *m M *m v) 0 0.

Lemma symP n (M : 'M[F]_n) : symmetric M <-> M^T = M.
Proof.
split=> [H|H i j].
  by apply/matrixP=> i j; rewrite mxE H.
by rewrite -[in LHS]H mxE.
Qed.
Lemma form_sum n (M : 'M[F]_n) (v : 'cV[F]_n) : (v^T *m M *m v) 0 0 = \sum_i \sum_j v i 0 * M i j * v j 0.
Proof.
rewrite mxE exchange_big /=; apply: eq_bigr=> j _.
by rewrite mxE big_distrl /=; apply: eq_bigr=> i _; rewrite mxE.
Qed.
Lemma covP n (M : 'M[F]_n) : covariance M <-> M^T = M /\ psd M.
Proof.
split=> -[H1 H2]; split.
- by apply/symP.
- by move=> v; rewrite form_sum; apply: (H2 (fun i => v i 0)).
- by apply/symP.
move=> v; have := H2 (\col_i v i); rewrite form_sum.
by under eq_bigr do under eq_bigr do rewrite !mxE.
Qed.

Lemma psdD n (A B : 'M[F]_n) : psd A -> psd B -> psd (A + B).
Proof. by move=> HA HB v; rewrite mulmxDr mulmxDl mxE addr_ge0. Qed.
Lemma psd0 n : psd (0 : 'M[F]_n).
Proof. by move=> v; rewrite mulmx0 mul0mx mxE. Qed.
Lemma psdZ n c (A : 'M[F]_n) : 0 <= c -> psd A -> psd (c *: A).
Proof. by move=> Hc HA v; rewrite -scalemxAr -scalemxAl mxE mulr_ge0. Qed.
Lemma psd_congr n m (A : 'M[F]_n) (K : 'M[F]_(m, n)) : psd A -> psd (K *m A *m K^T).
Proof.
move=> HA v; have := HA (K^T *m v); rewrite trmx_mul trmxK.
by rewrite !mulmxA.
Qed.
Lemma psd_outer n (d : 'cV[F]_n) : psd (d *m d^T).
Proof.
move=> v; rewrite mulmxA -mulmxA mxE big_ord1.
have -> : (d^T *m v) 0 0 = (v^T *m d) 0 0.
  by rewrite -[d^T *m v]trmxK trmx_mul trmxK mxE.
by rewrite -expr2 sqr_ge0.
Qed.
Lemma psd_sum n I (r : seq I) (f : I -> 'M[F]_n) : (forall i, psd (f i)) -> psd (\sum_(i <- r) f i).
Proof. by move=> H; apply: big_ind=> //; [apply: psd0 | apply: psdD]. Qed.
Lemma psd_sum_in n (I : eqType) (r : seq I) (f : I -> 'M[F]_n) :
  (forall i, i \in r -> psd (f i)) -> psd (\sum_(i <- r) f i).
Proof. by move=> H; rewrite big_seq; apply: big_ind=> //; [apply: psd0 | apply: psdD]. Qed.

Lemma cov_congr n m (A : 'M[F]_n) (K : 'M[F]_(m, n)) : covariance A -> covariance (K *m A *m K^T).
Proof.
move=> /covP [HA PA]; apply/covP; split; last exact: psd_congr.
by rewrite !trmx_mul trmxK HA mulmxA.
Qed.
Lemma covD n (A B : 'M[F]_n) : covariance A -> covariance B -> covariance (A + B).
Proof.
move=> /covP [HA PA] /covP [HB PB]; apply/covP; split; last exact: psdD.
by rewrite linearD /= HA HB.
Qed.
Lemma cov_block n m (A : 'M[F]_n) : covariance A -> covariance (block_mx A 0 0 0 : 'M[F]_(n + m)).
Proof.
move=> /covP [HA PA]; apply/covP; split.
  by rewrite tr_block_mx HA !trmx0.
move=> v; rewrite -[v]vsubmxK tr_col_mx mul_row_block !mulmx0 !addr0 mul_row_col.
by rewrite mul0mx addr0.
Qed.
Lemma cov_ulsub n m (A : 'M[F]_(n + m)) : covariance A -> covariance (ulsubmx A).
Proof.
move=> /covP [HA PA]; apply/covP; split.
  by rewrite trmx_ulsub HA.
move=> v; have := PA (col_mx v 0); rewrite -{1}[A]submxK tr_col_mx mul_row_block mul_row_col.
by rewrite !trmx0 !mul0mx !addr0 mulmx0 addr0.
Qed.

(** ** The corrections *)

Lemma solveP n p (A : 'M[F]_n) (B X : 'M[F]_(n, p)) : solve A B = Ok X -> A *m X = B.
Proof. by rewrite /solve; case: ifP=> // U [<-]; rewrite mulKVmx. Qed.

Lemma gainP n m (S : 'M[F]_m) (C : 'M[F]_(n, m)) X : solve S^T C^T = Ok X -> X^T *m S = C.
Proof. by move/solveP=> E; rewrite -[S]trmxK -trmx_mul E trmxK. Qed.

(** The corrected covariance written as a sum of semidefinite terms. *)
Lemma joseph n m (P : 'M[F]_n) (G : 'M[F]_(m, n)) (R : 'M[F]_m) (K : 'M[F]_(n, m)) :
  P^T = P -> R^T = R -> K *m (G *m P *m G^T + R) = P *m G^T ->
  (1%:M - K *m G) *m P = (1%:M - K *m G) *m P *m (1%:M - K *m G)^T + K *m R *m K^T.
Proof.
move=> HP HR E.
have MG : (1%:M - K *m G) *m P *m G^T = K *m R.
  by rewrite mulmxBl mul1mx mulmxBl -E mulmxDr !mulmxA addrAC subrr add0r.
by rewrite linearB /= trmx1 trmx_mul mulmxBr mulmx1 [_ *m (G^T *m K^T)]mulmxA MG subrK.
Qed.
Lemma extended_cov n m (P : 'M[F]_n) (G : 'M[F]_(m, n)) (R : 'M[F]_m) x z y r :
  extended_correct P G R x z y = Ok r ->
  exists K, K *m (G *m P *m G^T + R) = P *m G^T /\ e_mean r = x + K *m (y - z) /\
            e_cov r = (1%:M - K *m G) *m P /\ e_cov_pred r = P.
Proof.
rewrite /extended_correct /inv mulmxA; case: ifP=> // U [<-] /=.
exists (P *m G^T *m invmx (G *m P *m G^T + R)); split=> //.
by rewrite mulmxKV.
Qed.
Lemma extended_symmetric n m (P : 'M[F]_n) (G : 'M[F]_(m, n)) (R : 'M[F]_m) x z y r :
  symmetric P -> symmetric R -> extended_correct P G R x z y = Ok r -> symmetric (e_cov r).
Proof.
move=> /symP HP /symP HR /extended_cov [K [E [_ [-> _]]]]; apply/symP.
rewrite (joseph HP HR E) linearD /= !trmx_mul !trmxK HP HR !mulmxA.
by rewrite -!mulmxA.
Qed.
Lemma extended_psd n m (P : 'M[F]_n) (G : 'M[F]_(m, n)) (R : 'M[F]_m) x z y r :
  covariance P -> covariance R -> extended_correct P G R x z y = Ok r -> covariance (e_cov r).
Proof.
move=> CP CR /extended_cov [K [E [_ [-> _]]]].
have [HP _] := proj1 (covP P) CP; have [HR _] := proj1 (covP R) CR.
by rewrite (joseph HP HR E); apply: covD; apply: cov_congr.
Qed.

(** The correction of the sampling filters, for deviations [dx] and [dz] with weights. *)
Lemma sampled_joseph n m I (l : seq I) (w : I -> F) (dx : I -> 'cV[F]_n) (dz : I -> 'cV[F]_m)
    (Rv : 'M[F]_n) (Rn : 'M[F]_m) (K : 'M[F]_(n, m)) :
  let Px := \sum_(i <- l) w i *: (dx i *m (dx i)^T) in
  let S := \sum_(i <- l) w i *: (dz i *m (dz i)^T) + Rn in
  Rn^T = Rn -> K *m S = \sum_(i <- l) w i *: (dx i *m (dz i)^T) ->
  S^T = S /\
  Px + Rv - K *m (S *m K^T) =
  \sum_(i <- l) w i *: ((dx i - K *m dz i) *m (dx i - K *m dz i)^T) + Rv + K *m Rn *m K^T.
Proof.
move=> Px S HR E.
have HS : S^T = S.
  rewrite /S linearD /= HR; congr (_ + _); rewrite linear_sum /=; apply: eq_bigr=> i _.
  by rewrite linearZ /= trmx_mul trmxK.
split=> //.
pose C := \sum_(i <- l) w i *: (dx i *m (dz i)^T).
pose Z := \sum_(i <- l) w i *: (dz i *m (dz i)^T).
have X : \sum_(i <- l) w i *: ((dx i - K *m dz i) *m (dx i - K *m dz i)^T) =
         Px - C *m K^T - K *m C^T + K *m Z *m K^T.
  rewrite /Px /C /Z linear_sum /= !mulmx_sumr !mulmx_suml -!sumrB -big_split /=.
  apply: eq_bigr=> i _.
  rewrite linearZ /= -!scalemxAr -!scalemxAl -!scalerBr -scalerDr; congr (_ *: _).
  rewrite [(dx i *m (dz i)^T)^T]trmx_mul trmxK linearB /= trmx_mul mulmxBl !mulmxBr !mulmxA opprB addrA.
  by rewrite addrAC.
rewrite X.
have -> : C = K *m S by rewrite E.
have EZ : K *m Z *m K^T + K *m Rn *m K^T = K *m (S *m K^T).
  by rewrite -mulmxDl -mulmxDr mulmxA.
have ET : K *m (K *m S)^T = K *m (S *m K^T) by rewrite trmx_mul HS.
rewrite ET -[_ *m S *m _]mulmxA -[in RHS]addrA [Rv + _]addrC addrA -[_ + K *m Z *m K^T + _]addrA EZ.
by rewrite subrK addrAC.
Qed.

Lemma sampled_cov n m I (l : seq I) (w : I -> F) (dx : I -> 'cV[F]_n) (dz : I -> 'cV[F]_m)
    (Rv : 'M[F]_n) (Rn : 'M[F]_m) (K : 'M[F]_(n, m)) :
  let Px := \sum_(i <- l) w i *: (dx i *m (dx i)^T) in
  let S := \sum_(i <- l) w i *: (dz i *m (dz i)^T) + Rn in
  K *m S = \sum_(i <- l) w i *: (dx i *m (dz i)^T) ->
  symmetric Rv -> symmetric Rn -> symmetric (Px + Rv - K *m (S *m K^T)).
Proof.
move=> Px S E /symP HV /symP HR; apply/symP.
have [HS ->] := sampled_joseph Rv HR E.
rewrite !linearD /= HV !trmx_mul trmxK HR mulmxA; congr (_ + _ + _).
rewrite linear_sum /=; apply: eq_bigr=> i _.
by rewrite linearZ /= trmx_mul trmxK.
Qed.
Lemma sampled_psd n m (I : eqType) (l : seq I) (w : I -> F) (dx : I -> 'cV[F]_n) (dz : I -> 'cV[F]_m)
    (Rv : 'M[F]_n) (Rn : 'M[F]_m) (K : 'M[F]_(n, m)) :
  let Px := \sum_(i <- l) w i *: (dx i *m (dx i)^T) in
  let S := \sum_(i <- l) w i *: (dz i *m (dz i)^T) + Rn in
  K *m S = \sum_(i <- l) w i *: (dx i *m (dz i)^T) -> {in l, forall i, 0 <= w i} ->
  covariance Rv -> covariance Rn -> covariance (Px + Rv - K *m (S *m K^T)).
Proof.
move=> Px S E W CV CR; have [HV PV] := proj1 (covP Rv) CV; have [HR PR] := proj1 (covP Rn) CR.
apply/covP; split.
  by apply/symP; apply: sampled_cov=> //; apply/symP.
have [_ ->] := sampled_joseph Rv HR E.
apply: psdD; last exact: psd_congr.
by apply: psdD=> //; apply: psd_sum_in=> i Hi; apply: psdZ; [apply: W | apply: psd_outer].
Qed.

(** ** Weights and points *)

Lemma scale_gt0 n : (0 < n)%N -> 0 < n%:R + lamb F n.
Proof.
move=> n0; rewrite /lamb /kappa addr0; apply: ltr_paddr; last by rewrite ltr0n.
by rewrite mulr_ge0 ?sqr_ge0 ?ler0n.
Qed.
Lemma scale0 : 0%:R + lamb F 0 = 0.
Proof. by rewrite /lamb /kappa addr0 mulr0 addr0. Qed.
Lemma alpha_bounds : 0 < alpha F /\ alpha F ^+ 2 < 1.
Proof.
have H : 0 < (10%:R ^+ 3 : F) by rewrite exprn_gt0 ?ltr0n.
have A : 0 < alpha F by rewrite /alpha invr_gt0.
have A1 : alpha F < 1 by rewrite /alpha invf_lt1 // exprn_egt1 // ltr1n.
by split=> //; rewrite expr_lt1 // ltW.
Qed.

Lemma sum_zip_map (V : zmodType) A B C (w : seq A) (f : B -> C) (xs : seq B) (g : A -> C -> V) :
  \sum_(p <- zip w (map f xs)) g p.1 p.2 = \sum_(p <- zip w xs) g p.1 (f p.2).
Proof. by elim: xs w=> [|x xs IH] [|a w] /=; rewrite ?big_nil // !big_cons IH. Qed.
Lemma sum_zip_nseq (V : zmodType) A B (c : A) (xs : seq B) (g : A -> B -> V) k : k = size xs ->
  \sum_(p <- zip (nseq k c) xs) g p.1 p.2 = \sum_(x <- xs) g c x.
Proof. by move=> ->; elim: xs=> [|x xs IH] /=; rewrite ?big_nil // !big_cons IH. Qed.

Lemma column_ord n p (M : 'M[F]_(p, n)) (k : 'I_n) : column M k = col k M.
Proof. by rewrite /column valK. Qed.

(** A sum over all points but the first. *)
Lemma sum_points (V : zmodType) n (root : 'M[F]_n) (g : 'cV[F]_n -> V) :
  \sum_(i <- iota 0 (2 * n)) g ((if (i < n)%N then 1 else -1) *: column root (i %% n)) =
  \sum_(j < n) (g (col j root) + g (- col j root)).
Proof.
rewrite big_split /= mul2n -addnn iotaD big_cat /= add0n; congr (_ + _).
  rewrite -{1}(subn0 n) big_mkord; apply: eq_bigr=> j _.
  by rewrite ltn_ord scale1r modn_small // column_ord.
rewrite -{1}[n]addn0 iotaDl big_map -{1}(subn0 n) big_mkord; apply: eq_bigr=> j _.
by rewrite ltnNge leq_addr /= scaleN1r modnDl modn_small // column_ord.
Qed.

Lemma weights_ok n : (0 < n)%N -> exists wm wc, weights F n = Ok (wm, wc).
Proof. by move=> n0; rewrite /weights gt_eqF ?scale_gt0 //; eexists; eexists. Qed.
Lemma weights_zero : weights F 0 = Raise Base.ZeroDivisionErr.
Proof. by rewrite /weights scale0 eqxx. Qed.
Lemma weights_pos n wm wc : weights F n = Ok (wm, wc) -> (0 < n)%N.
Proof. by case: n=> [|n] //; rewrite weights_zero. Qed.

Lemma weights_sum n wm wc : weights F n = Ok (wm, wc) -> \sum_(w <- wm) w = 1.
Proof.
move=> H; have n0 := weights_pos H; have c0 := scale_gt0 n0; move: H.
rewrite /weights gt_eqF // => -[<- _]; rewrite big_cons big_nseq iter_addr_0.
have c1 : n%:R + lamb F n != 0 by rewrite gt_eqF.
have t1 : (2%:R : F) != 0 by rewrite pnatr_eq0.
rewrite -[X in _ + X]mulr_natl natrM mul1r invfM mulrACA divff // mul1r.
by rewrite -mulrDl addrC divff.
Qed.
Lemma weights_shape n wm wc : weights F n = Ok (wm, wc) ->
  [/\ size wm = (2 * n).+1, size wc = (2 * n).+1, {in wm, forall w, 0 < w} & {in wc, forall w, 0 < w}].
Proof.
move=> H; have n0 := weights_pos H; have c0 := scale_gt0 n0; move: H.
rewrite /weights gt_eqF // => -[<- <-]; rewrite /= !size_nseq.
have [a0 a1] := alpha_bounds.
have l0 : 0 < lamb F n.
  by rewrite /lamb /kappa addr0; apply: mulr_gt0; [apply: exprn_gt0 | rewrite ltr0n].
have h : 0 < 1 / (2%:R * (n%:R + lamb F n)) by rewrite mul1r invr_gt0; apply: mulr_gt0=> //; rewrite ltr0n.
have k0 : {in nseq (2 * n) (1 / (2%:R * (n%:R + lamb F n))), forall w, 0 < w}.
  by move=> w; rewrite mem_nseq => /andP [_ /eqP ->].
split=> //.
  move=> w; rewrite inE=> /orP [/eqP ->|/k0 //].
  by rewrite divr_gt0.
move=> w; rewrite inE=> /orP [/eqP ->|/k0 //].
rewrite addr_gt0 ?divr_gt0 //; apply: ltr_paddr; first by rewrite /beta ler0n.
by rewrite subr_gt0.
Qed.
End Proofs.

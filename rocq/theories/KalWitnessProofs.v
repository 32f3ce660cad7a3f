(** Proofs about the estimators: when a step succeeds, entries of the sampled moments,
    and worked instances. *)
From mathcomp Require Import all_ssreflect all_algebra.
From Verif Require Import KalModel KalSpec KalProofs KalMoreProofs.
Set Implicit Arguments.
Unset Strict Implicit.
Unset Printing Implicit Defensive.
Import Order.TTheory GRing.Theory Num.Theory.
Local Open Scope ring_scope.

Section Proofs.
Variable F : realFieldType.

(** ** Positive definite noise *)

Lemma positive_unit n (A R : 'M[F]_n) : psd A -> positive R -> (A + R) \in unitmx.
Proof.
move=> HA [_ HR]; rewrite -row_free_unit -kermx_eq0; apply/negPn/negP=> /rowV0Pn [v /sub_kermxP E N].
have [i Hi] : exists i, v^T i 0 != 0.
  apply/existsP; rewrite -[X in is_true X]negbK negb_exists; apply/negP=> /forallP H; move/negP: N; apply.
  by apply/eqP/rowP=> j; have := H j; rewrite negbK mxE => /eqP ->; rewrite mxE.
have P := HR (fun i => v^T i 0) (ex_intro _ i Hi).
have Z : (v^T^T *m (A + R) *m v^T) 0 0 = 0 by rewrite trmxK E mul0mx mxE.
move: Z; rewrite mulmxDr mulmxDl mxE [X in _ + X]form_sum => Z.
have := HA v^T; rewrite -(ler_add2r (\sum_i \sum_j v^T i 0 * R i j * v^T j 0)) Z add0r.
by rewrite leNgt P.
Qed.
Lemma positive_cov n (R : 'M[F]_n) : positive R -> covariance R.
Proof.
move=> [HS HP]; split=> // v; case E : [exists i, v i != 0].
  by apply/ltW/HP/existsP.
rewrite big1 // => i _; rewrite big1 // => j _.
have /eqP -> : v i == 0 by move/negbT: E; rewrite negb_exists => /forallP /(_ i); rewrite negbK.
by rewrite !mul0r.
Qed.
Lemma weighted_outer n w (xs : seq 'cV[F]_n) a : {in w, forall c, 0 < c} ->
  psd (weighted w [seq (x - a) *m (x - a)^T | x <- xs]).
Proof.
move=> W; rewrite /weighted (sum_zip_map w _ _ (fun c M => c *: M)); apply: psd_sum_in=> i /mem_zip_fst Hi.
by apply: psdZ; [apply/ltW/W | apply: psd_outer].
Qed.

Lemma unscented_correct_succeeds n m wm wc (aug : seq 'cV[F]_n) (meas : seq 'cV[F]_m) Rv Rn y :
  {in wc, forall c, 0 < c} -> positive Rn -> exists r, unscented_correct wm wc aug meas Rv Rn y = Ok r.
Proof.
move=> W HR; rewrite /unscented_correct /solve unitmx_tr positive_unit //; first by eexists.
exact: weighted_outer.
Qed.
Lemma map_res_fails A B (f : A -> res B) l e : map_res f l = Raise e -> exists a, f a = Raise e.
Proof.
elim: l=> [//|a l IH] /=; case E : (f a) => [b|e']; last by move=> [<-]; exists a.
by case: (map_res f l) IH=> [//|e'] IH [E']; apply: IH; rewrite E'.
Qed.
Lemma unscented_succeeds nx ny m (chol : 'M[F]_nx -> res 'M[F]_nx) simulate measure Rv Rn mean cov y root :
  (0 < nx)%N -> chol ((nx%:R + lamb F nx) *: cov) = Ok root ->
  (forall p, exists s, simulate p = Ok s) -> (forall x z, exists v, measure x z = Ok v) -> positive Rn ->
  exists r, unscented_step (ny := ny) (m := m) chol simulate measure Rv Rn mean cov y = Ok r.
Proof.
move=> n0 C HS HM HR; rewrite /unscented_step /sigma_points C.
have [wm [wc W]] := weights_ok F n0; rewrite W; lazy beta iota zeta.
case L : (map_res _ _) => [l|e]; last first.
  have [p] := map_res_fails L; by have [s ->] := HS p; have [v ->] := HM s.1 s.2.
have [_ _ _ P] := weights_shape W.
have [r /= ->] := @unscented_correct_succeeds _ _ wm wc [seq az.1 | az <- l] [seq az.2 | az <- l] (block_mx Rv 0 0 0) Rn y P HR.
by have [v ->] := HM (usubmx (e_mean r)) (dsubmx (e_mean r)); eexists.
Qed.
Lemma extended_succeeds nx ny m simulate linearise measure Rv Rn mean p_aug y :
  covariance p_aug -> covariance Rv -> positive Rn ->
  (forall p, exists s, simulate p = Ok s) -> (forall x z, exists t, linearise x z = Ok t) ->
  (forall x z, exists v, measure x z = Ok v) ->
  exists r : estimate F (nx + ny), extended_step (m := m) simulate linearise measure Rv Rn mean p_aug y = Ok r.
Proof.
move=> HP HV HR HS HL HM; rewrite /extended_step; have [s ->] := HS mean.
have [[[tr ga] g] ->] := HL s.1 s.2; have [z ->] := HM s.1 s.2.
rewrite /extended_correct /inv positive_unit //; last first.
  rewrite mulmxA; apply: psd_congr; have [_ H] := proj1 (covP _) (p_update_cov tr ga HP HV); exact: H.
set r := mkEstimate _ _ _; by have [v ->] := HM (usubmx (e_mean r)) (dsubmx (e_mean r)); eexists.
Qed.
Lemma chaos_cov_ok n m s k (a : 'M[F]_(n, k)) (b : 'M[F]_(m, k)) : (s <= k)%N -> exists M, chaos_cov s a b = Ok M.
Proof. by move=> H; rewrite /chaos_cov ltnNge H /=; eexists. Qed.
Lemma chaos_succeeds n m s k (l : 'M[F]_(k.+1, s)) (xs : 'M[F]_(n, s)) (zs : 'M[F]_(m, s)) Rv Rn y :
  (s <= k.+1)%N -> positive Rn -> exists r, chaos_correct l xs zs Rv Rn y = Ok r.
Proof.
move=> H HR; rewrite /chaos_correct.
set a := coefficients l xs; set b := coefficients l zs.
have [p1 E1] := chaos_cov_ok a a H; have [p2 E2] := chaos_cov_ok b b H; have [p3 E3] := chaos_cov_ok a b H.
rewrite E1 E2 E3 /solve unitmx_tr positive_unit //; first by eexists.
rewrite (chaos_cov_sum E2); apply: psd_sum=> c; apply: psdZ; [exact: ler01 | exact: psd_outer].
Qed.
Lemma chaos_fails n m s k (l : 'M[F]_(k.+1, s)) (xs : 'M[F]_(n, s)) (zs : 'M[F]_(m, s)) Rv Rn y :
  (0 < n)%N -> (k.+1 < s)%N -> chaos_correct l xs zs Rv Rn y = Raise Base.CasadiError.
Proof.
move=> n0 H; rewrite /chaos_correct {1}/chaos_cov n0 H /=.
by rewrite (leq_ltn_trans _ H).
Qed.

(** ** Moments of the points, entry by entry *)

Lemma mean_ofE n w (xs : seq 'cV[F]_n) i : mean_of w xs i = weighted w xs i 0.
Proof. by rewrite /mean_of /weighted summxE; apply: eq_bigr=> p _; rewrite mxE. Qed.
Lemma points_size n (mean : 'cV[F]_n) root : size (points mean root) = (2 * n).+1.
Proof. by rewrite /points /= size_map size_iota. Qed.
Lemma sigma_size n (chol : 'M[F]_n -> res 'M[F]_n) mean cov pts wm wc : sigma_points chol mean cov = Ok (pts, wm, wc) ->
  size pts = (2 * n).+1.
Proof. by move/sigma_form=> [r [_ _ ->]]; apply: points_size. Qed.
Lemma image_mean n q (A : 'M[F]_(q, n)) (b : 'cV[F]_q) chol mean cov pts wm wc i :
  sigma_points chol mean cov = Ok (pts, wm, wc) ->
  mean_of wm [seq A *m p + b | p <- pts] i = (A *m mean + b) i 0.
Proof. by move=> H; rewrite mean_ofE (affine_mean A b H). Qed.
Lemma sub_entry n (u v : 'cV[F]_n) i : (u - v) i 0 = u i 0 - v i 0.
Proof. by rewrite mxE [X in _ + X]mxE. Qed.
Lemma image_cov n q m (A : 'M[F]_(q, n)) (b : 'cV[F]_q) (C : 'M[F]_(m, n)) (d : 'cV[F]_m) chol mean cov pts wm wc i j :
  factors chol -> sigma_points chol mean cov = Ok (pts, wm, wc) ->
  cov_of wc [seq A *m p + b | p <- pts] (A *m mean + b) [seq C *m p + d | p <- pts] (C *m mean + d) i j =
  (A *m cov *m C^T) i j.
Proof.
move=> HC H; rewrite -(affine_cov A b C d HC H) /cov_of summxE zip_map.
rewrite (sum_zip_map wc (fun p => (A *m p + b, C *m p + d)) pts
   (fun c t => c * ((t.1 i 0 - (A *m mean + b) i 0) * (t.2 j 0 - (C *m mean + d) j 0)))) /=.
apply: eq_bigr=> p _; rewrite [RHS]mxE; congr (_ * _); rewrite [RHS]mxE big_ord1.
by rewrite [X in _ = _ * X]mxE !sub_entry.
Qed.
Lemma identity_image n (pts : seq 'cV[F]_n) : [seq 1%:M *m p + 0 | p <- pts] = pts.
Proof. by rewrite -[RHS]map_id; apply: eq_map=> p; rewrite mul1mx addr0. Qed.
Lemma points_mean n chol (mean : 'cV[F]_n) cov pts wm wc i : sigma_points chol mean cov = Ok (pts, wm, wc) ->
  mean_of wm pts i = mean i 0.
Proof. by move/(image_mean 1%:M 0 i); rewrite identity_image mul1mx addr0. Qed.
Lemma points_cov n chol (mean : 'cV[F]_n) cov pts wm wc i j : factors chol ->
  sigma_points chol mean cov = Ok (pts, wm, wc) -> cov_of wc pts mean pts mean i j = cov i j.
Proof.
move=> HC /(image_cov 1%:M 0 1%:M 0 i j HC).
by rewrite identity_image mul1mx addr0 mul1mx trmx1 mulmx1.
Qed.

(** ** One state, no algebraic variable *)

(** A factorisation that knows one matrix. *)
Definition one_root (n : nat) (root A : 'M[F]_n) : res 'M[F]_n :=
  if A == root^T *m root then Ok root else Raise Base.CasadiError.
Lemma one_root_factors n (root : 'M[F]_n) : factors (one_root root).
Proof. by move=> A r; rewrite /one_root; case: eqP=> // -> [<-]. Qed.

Definition unit_scale : F := 1%:R + lamb F 1.
Lemma unit_scale_gt0 : 0 < unit_scale.
Proof. exact: (scale_gt0 F (ltn0Sn 0)). Qed.
Definition scale1 : 'M[F]_1 := unit_scale%:M.
Lemma scale1_root : one_root scale1 ((1%:R + lamb F 1) *: scale1) = Ok scale1.
Proof.
rewrite /one_root /scale1 tr_scalar_mx -mul_scalar_mx -/unit_scale.
by rewrite eqxx.
Qed.
Lemma positive_one n : positive (1%:M : 'M[F]_n).
Proof.
split=> [i j|v [i Hi]]; first by rewrite !mxE eq_sym.
have E k : \sum_j v k * (1%:M : 'M[F]_n) k j * v j = v k ^+ 2.
  rewrite (bigD1 k) //= mxE eqxx mulr1 big1 ?addr0 // => j /negbTE H.
  by rewrite mxE eq_sym H mulr0 mul0r.
under eq_bigr do rewrite E.
rewrite (bigD1 i) //=; apply: ltr_paddr; last by rewrite lt_def sqrf_eq0 Hi sqr_ge0.
by apply: sumr_ge0=> k _; apply: sqr_ge0.
Qed.
Lemma cov_one n : covariance (1%:M : 'M[F]_n).
Proof. by apply/positive_cov/positive_one. Qed.
Lemma cov_zero n : covariance (0 : 'M[F]_n).
Proof. by apply/covP; split; [rewrite trmx0 | apply: psd0]. Qed.
Lemma symmetric_one n : symmetric (1%:M : 'M[F]_n).
Proof. by case: (positive_one n). Qed.

Definition hold (x : 'cV[F]_1) : res ('cV[F]_1 * 'cV[F]_0) := Ok (1%:M *m x + 0, 0 *m x + 0).
Definition read (x : 'cV[F]_1) (z : 'cV[F]_0) : res 'cV[F]_1 := Ok (row_mx 1%:M 0 *m col_mx x z + 0).

Lemma hold_step Rv mean y : exists r, unscented_step (one_root scale1) hold read Rv 1%:M mean scale1 y = Ok r.
Proof.
apply: unscented_succeeds scale1_root _ _ _=> //; last exact: positive_one.
- by move=> p; eexists.
by move=> x z; eexists.
Qed.

Lemma kalman_one (p : 'M[F]_(1 + 0)) (x : 'cV[F]_(1 + 0)) (z y : 'cV[F]_1) x' p' :
  kalman_update p (row_mx 1%:M 0) 1%:M x z y x' p' ->
  exists k : F, k * (ulsubmx p 0 0 + 1) = ulsubmx p 0 0 /\ usubmx x' 0 0 = usubmx x 0 0 + k * (y 0 0 - z 0 0).
Proof.
move=> [k [E [M _]]]; exists (usubmx k 0 0); split.
  move: E; rewrite -[p]submxK mul_row_block !mul1mx !mul0mx !addr0 tr_row_mx trmx1 trmx0 mul_row_col.
  rewrite mulmx1 mulmx0 addr0 mul_block_col mulmx1 !mulmx0 !addr0 -{1}[k]vsubmxK mul_col_mx => /eq_col_mx [+ _].
  by move/matrixP=> /(_ 0 0); rewrite [LHS]mxE big_ord1 block_mxKul !mxE eqxx mulr1n.
by rewrite M linearD /= [LHS]mxE -[k in usubmx (k *m _)]vsubmxK mul_col_mx col_mxKu [X in _ + X]mxE big_ord1 !mxE.
Qed.
Lemma kalman_noise_differs c (k : F) : k * (c + 1) = c -> k * (c + 1 + 1) = c + 1 -> False.
Proof.
move=> E; rewrite mulrDr E mulr1 => /addrI E1; move: E; rewrite E1 mul1r => /eqP.
by rewrite -subr_eq0 addrC addKr oner_eq0.
Qed.
Lemma process_noise_ignored r :
  unscented_step (one_root scale1) hold read 1%:M 1%:M 0 scale1 1%:M = Ok r ->
  ~ kalman_update (col_mx 1%:M 0 *m scale1 *m (col_mx 1%:M (0 : 'M[F]_(0, 1)))^T + block_mx 1%:M 0 0 0) (row_mx 1%:M 0) 1%:M
                  (col_mx 0 0) 0 1%:M (e_mean r) (e_cov r).
Proof.
move=> H K2.
have [p' [K1 _]] := unscented_affine (@one_root_factors _ scale1) (@symmetric_one 1) H.
have [k1 [A1 M1]] := kalman_one K1; have [k2 [A2 M2]] := kalman_one K2.
have P : ulsubmx (col_mx 1%:M (0 : 'M[F]_(0, 1)) *m scale1 *m (col_mx 1%:M (0 : 'M[F]_(0, 1)))^T) 0 0 = unit_scale.
  rewrite mul_col_mx mul1mx mul0mx tr_col_mx mul_col_row block_mxKul trmx1 mulmx1.
  by rewrite mxE eqxx mulr1n.
have Q : ulsubmx (col_mx 1%:M (0 : 'M[F]_(0, 1)) *m scale1 *m (col_mx 1%:M (0 : 'M[F]_(0, 1)))^T + block_mx 1%:M 0 0 0) 0 0 = unit_scale + 1.
  rewrite /ulsubmx linearD /= linearD /= mxE -/(ulsubmx _) P.
  by rewrite -/(ulsubmx (block_mx _ _ _ _)) block_mxKul mxE eqxx.
rewrite P in A1; rewrite Q in A2.
have X : usubmx (col_mx 1%:M (0 : 'M[F]_(0, 1)) *m (0 : 'cV[F]_1) + col_mx 0 0) 0 0 = 0.
  by rewrite mulmx0 add0r col_mxKu mxE.
have Y : (row_mx 1%:M (0 : 'M[F]_(1, 0)) *m (col_mx 1%:M (0 : 'M[F]_(0, 1)) *m (0 : 'cV[F]_1) + col_mx 0 0) + 0 : 'cV[F]_1) 0 0 = 0.
  by rewrite addr0 mulmx0 add0r mul_row_col !mulmx0 addr0 mxE.
rewrite X Y in M1; move: M2; rewrite M1 col_mxKu !mxE eqxx !subr0 !add0r !mulr1 => E.
by rewrite -E in A2; apply: (kalman_noise_differs A1 A2).
Qed.
Lemma hold_run mean y :
  exists rs, unscented_run (one_root scale1) 1%:M 1%:M mean scale1 [:: (hold, read, y)] = Ok rs.
Proof. by rewrite /=; have [r ->] := hold_step 1%:M mean y; eexists. Qed.
Definition flat (x : 'cV[F]_1) (z : 'cV[F]_0) : res ('M[F]_(1 + 0) * 'M[F]_(1 + 0, 1) * 'M[F]_(1, 1 + 0)) :=
  Ok (1%:M, col_mx 1%:M 0, row_mx 1%:M 0).
Lemma hold_extended p mean y : covariance p ->
  exists r, extended_step hold flat read 1%:M 1%:M mean p y = Ok r.
Proof.
move=> HP; apply: extended_succeeds=> //; [exact: cov_one | exact: positive_one | | |].
- by move=> x; eexists.
- by move=> x z; eexists.
by move=> x z; eexists.
Qed.
Lemma hold_extended_run p mean ys : covariance p ->
  exists rs, extended_run 1%:M 1%:M mean p [seq (hold, flat, read, y) | y <- ys] = Ok rs.
Proof.
elim: ys mean p=> [|y ys IH] mean p HP /=; first by eexists.
have [r E] := hold_extended mean y HP; rewrite E.
have [rs ->] := IH (usubmx (e_mean r)) (e_cov r) (extended_step_psd HP (cov_one 1) (cov_one 1) E).
by eexists.
Qed.
Lemma points_exist : exists pts wm wc, sigma_points (one_root scale1) (1%:M : 'M[F]_1) scale1 = Ok (pts, wm, wc).
Proof.
rewrite /sigma_points scale1_root.
by have [wm [wc ->]] := weights_ok F (ltn0Sn 0); eexists; eexists; eexists.
Qed.
Lemma weights_example n : (0 < n)%N -> exists wm wc, weights F n = Ok (wm, wc) /\ size wm = (2 * n).+1.
Proof.
move=> n0; have [wm [wc E]] := weights_ok F n0.
by exists wm, wc; have [H _ _ _] := weights_shape E.
Qed.
Lemma hold_run_example mean y :
  exists rs, unscented_run (one_root scale1) 1%:M 1%:M mean scale1 [:: (hold, read, y)] = Ok rs /\ size rs = 1%N /\
             forall r, List.In r rs -> covariance (e_cov r).
Proof.
have [rs E] := hold_run mean y; exists rs; split=> //; split.
  by move: E => /=; case: (unscented_step _ _ _ _ _ _ _ _) => // r [<-].
by move=> r H; have [] := unscented_run_psd (@cov_one 1) (@cov_one 1) E H.
Qed.
Lemma hold_decrease_example mean y :
  exists r, unscented_step (one_root scale1) hold read 1%:M 1%:M mean scale1 y = Ok r /\
            covariance (e_cov_pred r - e_cov r).
Proof. by have [r E] := hold_step 1%:M mean y; exists r; split=> //; exact: (unscented_decrease (@cov_one 1) E). Qed.
End Proofs.

(** ** Three uncertain quantities, first order *)

(** The basis 1, a, b, c at four samples. *)
Definition corners : 'M[rat]_4 :=
  \matrix_(s, c) nth 0 (nth [::] [:: [:: 1; 1; 1; 1]; [:: 1; 1; -1; -1]; [:: 1; -1; 1; -1]; [:: 1; -1; -1; 1]] s) c.
Definition two4 : 'M[rat]_4 := 2%:R%:M.
Lemma corners_square : corners^T *m corners = two4^T *m two4.
Proof.
apply/matrixP=> -[[|[|[|[|i]]]] Hi] [[|[|[|[|j]]]] Hj] //; rewrite !mxE !big_ord_recl !big_ord0 !mxE /=; by apply/eqP.
Qed.
Lemma two4_unit : two4 \in unitmx.
Proof. by rewrite unitmxE det_scalar. Qed.
Lemma corners_factor : exists l, ls_factor (one_root two4) corners 0 = Ok l.
Proof.
rewrite /ls_factor scale0r addr0 corners_square /one_root eqxx /solve two4_unit.
by eexists.
Qed.
Lemma corners_one s : corners s ord0 = 1.
Proof. by case: s=> [[|[|[|[|s]]]] Hs]; rewrite //= mxE. Qed.
Definition germs : 'M[rat]_(3, 4) := \matrix_(j, s) corners s (lift ord0 j).
Lemma corners_affine (x : 'cV[rat]_3) M C d : exists l r,
  ls_factor (one_root two4) corners 0 = Ok l /\
  chaos_correct l (\matrix_(i, s) (x + M *m col s germs) i 0) (\matrix_(i, s) (C *m (x + M *m col s germs) + d) i 0)
                1%:M (1%:M : 'M[rat]_2) 0 = Ok r.
Proof.
have [l E] := corners_factor.
have [r R] := chaos_succeeds l (\matrix_(i, s) (x + M *m col s germs) i 0) (\matrix_(i, s) (C *m (x + M *m col s germs) + d) i 0)
                1%:M 0 (leqnn 4) (positive_one _ 2).
by exists l, r.
Qed.

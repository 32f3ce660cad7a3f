(** Proofs about the estimators: unscented transform, whole steps, least squares. *)
From mathcomp Require Import all_ssreflect all_algebra.
From Verif Require Import KalModel KalSpec KalProofs.
Set Implicit Arguments.
Unset Strict Implicit.
Unset Printing Implicit Defensive.
Import Order.TTheory GRing.Theory Num.Theory.
Local Open Scope ring_scope.

Section Proofs.
Variable F : realFieldType.

(** ** The unscented transform *)

Lemma weights_form n wm wc : weights F n = Ok (wm, wc) ->
  exists w0 v0 c, [/\ wm = w0 :: nseq (2 * n) c, wc = v0 :: nseq (2 * n) c,
                      w0 + c *+ (2 * n) = 1 & (c + c) * (n%:R + lamb F n) = 1].
Proof.
move=> H; have S := weights_sum H; have n0 := weights_pos H; have c0 := scale_gt0 F n0; move: H S.
rewrite /weights gt_eqF // => -[<- <-] S; pose c := n%:R + lamb F n.
exists (lamb F n / c), (lamb F n / c + (1 - alpha F ^+ 2 + beta F)), (1 / (2%:R * c)); split=> //.
  by move: S; rewrite big_cons big_nseq iter_addr_0.
have c1 : n%:R + lamb F n != 0 by rewrite gt_eqF.
have t1 : (2%:R : F) != 0 by rewrite pnatr_eq0.
by rewrite -[X in X * _]mulr2n -[X in X * _]mulr_natl mul1r /c invfM mulrA divff // mul1r mulVf.
Qed.

Lemma sigma_form n (chol : 'M[F]_n -> res 'M[F]_n) mean cov pts wm wc :
  sigma_points chol mean cov = Ok (pts, wm, wc) ->
  exists r, [/\ chol ((n%:R + lamb F n) *: cov) = Ok r, weights F n = Ok (wm, wc) & pts = points mean r^T].
Proof.
rewrite /sigma_points; case E : (chol _) => [r|//]; case W : (weights F n) => [[a b]|//] [<- <- <-].
by exists r.
Qed.

(** A weighted sum over the points, by pairs. *)
Lemma sum_pairs (V : lmodType F) n (mean : 'cV[F]_n) root w0 c (g : 'cV[F]_n -> V) :
  \sum_(p <- zip (w0 :: nseq (2 * n) c) (points mean root)) p.1 *: g p.2 =
  w0 *: g mean + c *: \sum_(j < n) (g (mean + col j root) + g (mean - col j root)).
Proof.
rewrite /points /= big_cons; congr (_ + _).
rewrite (sum_zip_map (nseq (2 * n) c)
  (fun i => mean + (if (i < n)%N then 1 else -1) *: column root (i %% n)) _ (fun a x => a *: g x)).
rewrite (@sum_zip_nseq V _ _ c _ (fun a i => a *: g (mean + (if (i < n)%N then 1 else -1) *: column root (i %% n))));
  last by rewrite size_iota.
by rewrite -scaler_sumr (sum_points root (fun d => g (mean + d))).
Qed.

Lemma affine_mean n q (A : 'M[F]_(q, n)) (b : 'cV[F]_q) chol mean cov pts wm wc :
  sigma_points chol mean cov = Ok (pts, wm, wc) ->
  weighted wm [seq A *m p + b | p <- pts] = A *m mean + b.
Proof.
move/sigma_form=> [r [_ W ->]]; have [w0 [v0 [c [-> _ S _]]]] := weights_form W.
rewrite /weighted (sum_zip_map _ (fun p => A *m p + b) _ (fun a x => a *: x)).
rewrite (sum_pairs mean r^T w0 c (fun p => A *m p + b)).
have H j : A *m (mean + col j r^T) + b + (A *m (mean - col j r^T) + b) = (A *m mean + b) *+ 2.
  by rewrite mulmxDr mulmxBr addrACA [X in X + _]addrACA subrr addr0 -!mulr2n -mulrnDl.
under eq_bigr do rewrite H.
rewrite sumr_const card_ord -mulrnA -scalerMnr scalerMnl -scalerDl.
by rewrite S scale1r.
Qed.

Lemma sum_columns n m q (A : 'M[F]_(q, n)) (C : 'M[F]_(m, n)) (M : 'M[F]_n) :
  \sum_(j < n) (A *m col j M) *m (C *m col j M)^T = A *m (M *m M^T) *m C^T.
Proof.
have H : M *m M^T = \sum_(j < n) col j M *m (col j M)^T.
  apply/matrixP=> a b; rewrite mxE summxE; apply: eq_bigr=> j _.
  by rewrite !mxE big_ord1 !mxE.
rewrite H mulmx_sumr mulmx_suml; apply: eq_bigr=> j _.
by rewrite trmx_mul !mulmxA.
Qed.

Lemma affine_cov n q m (A : 'M[F]_(q, n)) (b : 'cV[F]_q) (C : 'M[F]_(m, n)) (d : 'cV[F]_m) chol mean cov pts wm wc :
  factors chol -> sigma_points chol mean cov = Ok (pts, wm, wc) ->
  \sum_(p <- zip wc pts) p.1 *: ((A *m p.2 + b - (A *m mean + b)) *m (C *m p.2 + d - (C *m mean + d))^T) =
  A *m cov *m C^T.
Proof.
move=> HC /sigma_form [r [R W ->]]; have [w0 [v0 [c [_ -> _ S]]]] := weights_form W.
rewrite (sum_pairs _ _ _ _ (fun p => (A *m p + b - (A *m mean + b)) *m (C *m p + d - (C *m mean + d))^T)).
have H k (B : 'M[F]_(k, n)) (e : 'cV[F]_k) p : B *m p + e - (B *m mean + e) = B *m (p - mean).
  by rewrite opprD addrACA subrr addr0 mulmxBr.
under eq_bigr => j _ do rewrite !H addrAC subrr add0r [mean - _ - _]addrAC subrr add0r !mulmxN linearN /= mulmxN mulNmx opprK.
rewrite !H subrr !mulmx0 mul0mx scaler0 add0r big_split /= sum_columns trmxK (HC _ _ R).
rewrite -scalemxAr -scalemxAl -scalerDl scalerA.
by rewrite mulrDr -mulrDl S scale1r.
Qed.

(** ** Whole steps *)

Lemma mem_zip_fst (A B : eqType) (s : seq A) (t : seq B) p : p \in zip s t -> p.1 \in s.
Proof.
elim: s t=> [|a s IH] [|b t] //=; rewrite !inE => /orP [/eqP ->|/IH ->]; first by rewrite eqxx.
by rewrite orbT.
Qed.

Lemma unscented_form n m wm wc (l : seq ('cV[F]_n * 'cV[F]_m)) Rv Rn y r :
  unscented_correct wm wc [seq az.1 | az <- l] [seq az.2 | az <- l] Rv Rn y = Ok r ->
  exists K,
    let x := weighted wm [seq az.1 | az <- l] in
    let z := weighted wm [seq az.2 | az <- l] in
    let S := \sum_(t <- zip wc l) t.1 *: ((t.2.2 - z) *m (t.2.2 - z)^T) + Rn in
    [/\ K *m S = \sum_(t <- zip wc l) t.1 *: ((t.2.1 - x) *m (t.2.2 - z)^T),
        e_mean r = x + K *m (y - z),
        e_cov r = \sum_(t <- zip wc l) t.1 *: ((t.2.1 - x) *m (t.2.1 - x)^T) + Rv - K *m (S *m K^T)
      & e_cov_pred r = \sum_(t <- zip wc l) t.1 *: ((t.2.1 - x) *m (t.2.1 - x)^T) + Rv].
Proof.
rewrite /unscented_correct; set x := weighted wm [seq az.1 | az <- l]; set z := weighted wm [seq az.2 | az <- l].
rewrite [zip (map _ l) _]zip_unzip /weighted -!map_comp.
rewrite (sum_zip_map wc (fun a : 'cV[F]_n * 'cV[F]_m => (a.1 - x) *m (a.1 - x)^T) _ (fun a b => a *: b)).
rewrite (sum_zip_map wc (fun a : 'cV[F]_n * 'cV[F]_m => (a.2 - z) *m (a.2 - z)^T) _ (fun a b => a *: b)).
rewrite (sum_zip_map wc (fun a : 'cV[F]_n * 'cV[F]_m => (a.1 - x) *m (a.2 - z)^T) _ (fun a b => a *: b)).
case E : (solve _ _) => [s|//] [<-] /=; exists s^T; split=> //.
exact: gainP E.
Qed.

Lemma unscented_step_form nx ny m chol simulate measure Rv Rn mean cov y (r : estimate F (nx + ny)) :
  unscented_step (m := m) chol simulate measure Rv Rn mean cov y = Ok r ->
  exists pts wm wc l,
    [/\ sigma_points chol mean cov = Ok (pts, wm, wc),
        map_res (fun p => match simulate p with
                              | Raise e => Raise e
                              | Ok s => match measure s.1 s.2 with
                                        | Raise e => Raise e
                                        | Ok z => Ok (col_mx s.1 s.2, z)
                                        end
                              end) pts = Ok l
      & unscented_correct wm wc [seq az.1 | az <- l] [seq az.2 | az <- l] (block_mx Rv 0 0 0) Rn y = Ok r].
Proof.
rewrite /unscented_step; case E : (sigma_points _ _ _) => [[[pts wm] wc]|//].
case L : (map_res _ _) => [l|//]; case U : (unscented_correct _ _ _ _ _ _ _) => [r'|//].
case: (measure _ _)=> // _ [<-]; by exists pts, wm, wc, l.
Qed.

Lemma unscented_symmetric nx ny m chol simulate measure Rv Rn mean cov y (r : estimate F (nx + ny)) :
  symmetric Rv -> symmetric Rn ->
  unscented_step (m := m) chol simulate measure Rv Rn mean cov y = Ok r ->
  symmetric (e_cov r) /\ symmetric (next_state r).2.
Proof.
move=> HV HR /unscented_step_form [pts [wm [wc [l [_ _ U]]]]].
have [K [E _ C _]] := unscented_form U.
have S : symmetric (e_cov r).
  rewrite C; apply: sampled_cov=> //; apply/symP.
  by rewrite tr_block_mx !trmx0; congr block_mx; apply/symP.
by split=> //; rewrite /next_state /=; apply/symP; rewrite trmx_ulsub; congr ulsubmx; apply/symP.
Qed.
Lemma unscented_psd nx ny m chol simulate measure Rv Rn mean cov y (r : estimate F (nx + ny)) :
  covariance Rv -> covariance Rn ->
  unscented_step (m := m) chol simulate measure Rv Rn mean cov y = Ok r ->
  covariance (e_cov r) /\ covariance (next_state r).2.
Proof.
move=> HV HR /unscented_step_form [pts [wm [wc [l [/sigma_form [q [_ W _]] _ U]]]]].
have [K [E _ C _]] := unscented_form U.
have S : covariance (e_cov r).
  rewrite C; apply: sampled_psd=> //; last exact: cov_block.
  move=> i /mem_zip_fst; have [_ _ _ P] := weights_shape W.
  by move/P/ltW.
by split=> //; rewrite /next_state /=; apply: cov_ulsub.
Qed.

Lemma unscented_pred nx ny m chol simulate measure Rv Rn mean cov y (r : estimate F (nx + ny)) :
  covariance Rv ->
  unscented_step (m := m) chol simulate measure Rv Rn mean cov y = Ok r -> covariance (e_cov_pred r).
Proof.
move=> HV /unscented_step_form [pts [wm [wc [l [/sigma_form [q [_ W _]] _ U]]]]].
have [K [_ _ _ ->]] := unscented_form U; apply: covD; last exact: cov_block.
apply/covP; split.
  rewrite linear_sum; apply: eq_bigr=> t _; by rewrite linearZ /= trmx_mul trmxK.
apply: psd_sum_in=> t /mem_zip_fst; have [_ _ _ P] := weights_shape W.
by move/P/ltW=> H; apply: psdZ=> //; apply: psd_outer.
Qed.
Lemma unscented_run_psd nx ny m (chol : 'M[F]_nx -> res 'M[F]_nx) Rv Rn mean cov calls rs :
  covariance Rv -> covariance Rn ->
  unscented_run (ny := ny) (m := m) chol Rv Rn mean cov calls = Ok rs ->
  forall r, List.In r rs -> [/\ covariance (e_cov r), covariance (e_cov_pred r) & covariance (next_state r).2].
Proof.
move=> HV HR; elim: calls mean cov rs=> [|[[sim mea] y] calls IH] mean cov rs /=; first by move=> [<-].
case E : (unscented_step _ _ _ _ _ _ _ _) => [r|//]; case E' : (unscented_run _ _ _ _ _ _) => [rs'|//] [<-].
move=> r' [<-|H]; last exact: IH E' _ H.
by have [C1 C2] := unscented_psd HV HR E; split=> //; apply: unscented_pred E.
Qed.

(** ** Affine systems *)

Lemma map_res_ext A B (f : A -> res B) (g : A -> B) l : (forall a, f a = Ok (g a)) -> map_res f l = Ok [seq g a | a <- l].
Proof. by move=> H; elim: l=> [//|a l IH] /=; rewrite H IH. Qed.
Lemma root_symmetric n (chol : 'M[F]_n -> res 'M[F]_n) cov r : factors chol -> (0 < n)%N ->
  chol ((n%:R + lamb F n) *: cov) = Ok r -> cov^T = cov.
Proof.
move=> HC n0 /HC E; have c0 := scale_gt0 F n0.
have S : ((n%:R + lamb F n) *: cov)^T = (n%:R + lamb F n) *: cov by rewrite -E trmx_mul trmxK.
move: S; rewrite linearZ /= => /scalerI; apply.
by rewrite gt_eqF.
Qed.

Lemma unscented_affine nx ny m chol (A1 : 'M[F]_nx) b1 (A2 : 'M[F]_(ny, nx)) b2 (C : 'M[F]_(m, nx + ny)) d
    Rv Rn mean cov y (r : estimate F (nx + ny)) :
  factors chol -> symmetric Rn ->
  unscented_step chol (fun p => Ok (A1 *m p + b1, A2 *m p + b2)) (fun x z => Ok (C *m col_mx x z + d))
                 Rv Rn mean cov y = Ok r ->
  let A := col_mx A1 A2 in
  let x := A *m mean + col_mx b1 b2 in
  exists p', kalman_update (A *m cov *m A^T) C Rn x (C *m x + d) y (e_mean r) p' /\
             e_cov r = p' + block_mx Rv 0 0 0.
Proof.
move=> HC /symP HR /unscented_step_form [pts [wm [wc [l [G L U]]]]] A x.
set b := col_mx b1 b2 in x *.
have EL : l = [seq (A *m p + b, (C *m A) *m p + (C *m b + d)) | p <- pts].
  move: L; rewrite (map_res_ext _ (g := fun p => (A *m p + b, (C *m A) *m p + (C *m b + d)))); first by case.
  by move=> p /=; rewrite -mulmxA addrA -mulmxDr /A /b mul_col_mx add_col_mx.
have [q [Q W _]] := sigma_form G.
have n0 := weights_pos W.
have HP := root_symmetric HC n0 Q.
have [K [E M EC _]] := unscented_form U.
have X1 : weighted wm [seq az.1 | az <- l] = x.
  by rewrite EL -map_comp (affine_mean A b G).
have X2 : weighted wm [seq az.2 | az <- l] = C *m x + d.
  by rewrite EL -map_comp (affine_mean (C *m A) (C *m b + d) G) /x mulmxDr mulmxA addrA.
have Z : C *m x + d = (C *m A) *m mean + (C *m b + d) by rewrite /x mulmxDr mulmxA addrA.
rewrite X1 X2 in E M EC.
pose P := A *m cov *m A^T.
have PT : P^T = P by rewrite /P !trmx_mul trmxK HP mulmxA.
have Pxx : \sum_(t <- zip wc l) t.1 *: ((t.2.1 - x) *m (t.2.1 - x)^T) = P.
  rewrite EL (sum_zip_map wc _ _ (fun a t => a *: ((t.1 - x) *m (t.1 - x)^T))) /=.
  exact: (affine_cov A b A b HC G).
have Pxz : \sum_(t <- zip wc l) t.1 *: ((t.2.1 - x) *m (t.2.2 - (C *m x + d))^T) = P *m C^T.
  rewrite EL (sum_zip_map wc _ _ (fun a t => a *: ((t.1 - x) *m (t.2 - (C *m x + d))^T))) /= Z.
  by rewrite (affine_cov A b (C *m A) (C *m b + d) HC G) trmx_mul mulmxA.
have Pzz : \sum_(t <- zip wc l) t.1 *: ((t.2.2 - (C *m x + d)) *m (t.2.2 - (C *m x + d))^T) = C *m P *m C^T.
  rewrite EL (sum_zip_map wc _ _ (fun a t => a *: ((t.2 - (C *m x + d)) *m (t.2 - (C *m x + d))^T))) /= Z.
  by rewrite (affine_cov (C *m A) (C *m b + d) (C *m A) (C *m b + d) HC G) trmx_mul !mulmxA.
rewrite Pxx Pxz Pzz in E EC.
exists ((1%:M - K *m C) *m P); split; first by exists K.
rewrite EC addrAC; congr (_ + _).
rewrite mulmxBl mul1mx; congr (_ - _).
have ST : (C *m P *m C^T + Rn)^T = C *m P *m C^T + Rn.
  by rewrite linearD /= HR [in LHS]trmx_mul [(C *m P)^T]trmx_mul trmxK PT mulmxA.
rewrite -[X in K *m (X *m _)]ST -trmx_mul E trmx_mul trmxK PT mulmxA.
by [].
Qed.

(** ** Extended filter *)

Lemma extended_step_form nx ny m simulate linearise measure Rv Rn mean p_aug y (r : estimate F (nx + ny)) :
  extended_step (m := m) simulate linearise measure Rv Rn mean p_aug y = Ok r ->
  exists s trans gamma g z,
    [/\ simulate mean = Ok s, linearise s.1 s.2 = Ok (trans, gamma, g), measure s.1 s.2 = Ok z
      & extended_correct (p_update trans p_aug gamma Rv) g Rn (col_mx s.1 s.2) z y = Ok r].
Proof.
rewrite /extended_step; case E : (simulate mean) => [s|//].
case L : (linearise _ _) => [[[trans gamma] g]|//]; case M : (measure _ _) => [z|//].
case C : (extended_correct _ _ _ _ _ _) => [r'|//]; case: (measure _ _)=> // _ [<-].
by exists s, trans, gamma, g, z.
Qed.
Lemma p_update_sym n nx (trans p : 'M[F]_n) (gamma : 'M[F]_(n, nx)) q :
  symmetric p -> symmetric q -> symmetric (p_update trans p gamma q).
Proof.
move=> /symP HP /symP HQ; apply/symP; rewrite /p_update linearD /= !trmx_mul !trmxK HP HQ.
by rewrite !mulmxA.
Qed.
Lemma p_update_cov n nx (trans p : 'M[F]_n) (gamma : 'M[F]_(n, nx)) q :
  covariance p -> covariance q -> covariance (p_update trans p gamma q).
Proof. by move=> HP HQ; rewrite /p_update !mulmxA; apply: covD; apply: cov_congr. Qed.
Lemma extended_step_symmetric nx ny m simulate linearise measure Rv Rn mean p_aug y (r : estimate F (nx + ny)) :
  symmetric p_aug -> symmetric Rv -> symmetric Rn ->
  extended_step (m := m) simulate linearise measure Rv Rn mean p_aug y = Ok r -> symmetric (e_cov r).
Proof.
move=> HP HV HR /extended_step_form [s [tr [ga [g [z [_ _ _ E]]]]]].
by apply: extended_symmetric E=> //; apply: p_update_sym.
Qed.
Lemma extended_step_psd nx ny m simulate linearise measure Rv Rn mean p_aug y (r : estimate F (nx + ny)) :
  covariance p_aug -> covariance Rv -> covariance Rn ->
  extended_step (m := m) simulate linearise measure Rv Rn mean p_aug y = Ok r -> covariance (e_cov r).
Proof.
move=> HP HV HR /extended_step_form [s [tr [ga [g [z [_ _ _ E]]]]]].
by apply: extended_psd E=> //; apply: p_update_cov.
Qed.
Lemma extended_step_kalman nx ny m simulate linearise measure Rv Rn mean p_aug y (r : estimate F (nx + ny)) :
  extended_step (m := m) simulate linearise measure Rv Rn mean p_aug y = Ok r ->
  exists s trans gamma g z,
    [/\ simulate mean = Ok s, linearise s.1 s.2 = Ok (trans, gamma, g), measure s.1 s.2 = Ok z
      & kalman_update (trans *m p_aug *m trans^T + gamma *m Rv *m gamma^T) g Rn (col_mx s.1 s.2) z y
                      (e_mean r) (e_cov r)].
Proof.
move=> /extended_step_form [s [tr [ga [g [z [H1 H2 H3 E]]]]]].
exists s, tr, ga, g, z; split=> //.
have [K [E1 [E2 [E3 _]]]] := extended_cov E.
by exists K; move: E1 E3; rewrite /p_update !mulmxA.
Qed.

Lemma extended_step_pred nx ny m simulate linearise measure Rv Rn mean p_aug y (r : estimate F (nx + ny)) :
  covariance p_aug -> covariance Rv ->
  extended_step (m := m) simulate linearise measure Rv Rn mean p_aug y = Ok r -> covariance (e_cov_pred r).
Proof.
move=> HP HV /extended_step_form [s [tr [ga [g [z [_ _ _ E]]]]]].
by have [K [_ [_ [_ ->]]]] := extended_cov E; apply: p_update_cov.
Qed.
Lemma extended_run_psd nx ny m Rv Rn mean p_aug calls (rs : seq (estimate F (nx + ny))) :
  covariance p_aug -> covariance Rv -> covariance Rn ->
  extended_run (m := m) Rv Rn mean p_aug calls = Ok rs ->
  forall r, List.In r rs -> covariance (e_cov r) /\ covariance (e_cov_pred r).
Proof.
move=> HP HV HR; elim: calls mean p_aug HP rs=> [|[[[sim lin] mea] y] calls IH] mean p HP rs /=; first by move=> [<-].
case E : (extended_step _ _ _ _ _ _ _ _) => [r|//]; case E' : (extended_run _ _ _ _ _) => [rs'|//] [<-].
have C := extended_step_psd HP HV HR E.
move=> r' [<-|H]; last exact: IH C _ E' _ H.
by split=> //; apply: extended_step_pred HP HV E.
Qed.

(** ** Polynomial chaos *)

Lemma chaos_cov_sum n m s k (a : 'M[F]_(n, k)) (b : 'M[F]_(m, k)) M : chaos_cov s a b = Ok M ->
  M = \sum_(c <- [seq c : 'I_k <- enum 'I_k | (0 < c < s)%N]) 1 *: (col c a *m (col c b)^T).
Proof.
rewrite /chaos_cov; case: ifP=> // _ [<-]; apply/matrixP=> i j.
rewrite mxE summxE big_filter big_enum_cond /=; apply: eq_bigr=> c _.
by rewrite !mxE big_ord1 !mxE mul1r.
Qed.
Lemma chaos_form n m s k (l : 'M[F]_(k.+1, s)) (xs : 'M[F]_(n, s)) (zs : 'M[F]_(m, s)) Rv Rn y r :
  chaos_correct l xs zs Rv Rn y = Ok r ->
  exists K,
    let a := coefficients l xs in
    let b := coefficients l zs in
    let e := [seq c : 'I_k.+1 <- enum 'I_k.+1 | (0 < c < s)%N] in
    let S := \sum_(c <- e) 1 *: (col c b *m (col c b)^T) + Rn in
    [/\ K *m S = \sum_(c <- e) 1 *: (col c a *m (col c b)^T),
        e_mean r = col ord0 a + K *m (y - col ord0 b)
      & e_cov r = \sum_(c <- e) 1 *: (col c a *m (col c a)^T) + Rv - K *m (S *m K^T)].
Proof.
rewrite /chaos_correct; set a := coefficients l xs; set b := coefficients l zs.
case E1 : (chaos_cov _ a a) => [p1|//]; case E2 : (chaos_cov _ b b) => [p2|//].
case E3 : (chaos_cov _ a b) => [p3|//]; case E : (solve _ _) => [g|//] [<-] /=.
rewrite -(chaos_cov_sum E1) -(chaos_cov_sum E2) -(chaos_cov_sum E3).
by exists g^T; split=> //; apply: gainP E.
Qed.
Lemma chaos_symmetric n m s k (l : 'M[F]_(k.+1, s)) (xs : 'M[F]_(n, s)) (zs : 'M[F]_(m, s)) Rv Rn y r :
  symmetric Rv -> symmetric Rn -> chaos_correct l xs zs Rv Rn y = Ok r -> symmetric (e_cov r).
Proof.
move=> HV HR /chaos_form [K [E _ ->]].
exact: (sampled_cov (w := fun=> 1) (dx := fun c => col c _) (dz := fun c => col c _) E).
Qed.
Lemma chaos_psd n m s k (l : 'M[F]_(k.+1, s)) (xs : 'M[F]_(n, s)) (zs : 'M[F]_(m, s)) Rv Rn y r :
  covariance Rv -> covariance Rn -> chaos_correct l xs zs Rv Rn y = Ok r -> covariance (e_cov r).
Proof.
move=> HV HR /chaos_form [K [E _ ->]].
by apply: (sampled_psd (w := fun=> 1) (dx := fun c => col c _) (dz := fun c => col c _) E)=> // i _; apply: ler01.
Qed.
Lemma chaos_samples n m s k (l : 'M[F]_(k.+1, s)) (xs : 'M[F]_(n, s)) (zs : 'M[F]_(m, s)) Rv Rn y r :
  (0 < n)%N -> chaos_correct l xs zs Rv Rn y = Ok r -> (s <= k.+1)%N.
Proof.
move=> n0; rewrite /chaos_correct /chaos_cov n0 andbT /=; rewrite leqNgt; case: ltnP=> //= H.
by rewrite (leq_ltn_trans _ H).
Qed.


(** ** Least squares *)

Lemma ls_factorP s k chol (psi : 'M[F]_(s, k)) reg l : factors chol -> ls_factor chol psi reg = Ok l ->
  (psi^T *m psi + reg *: 1%:M) *m l = psi^T /\ (psi^T *m psi + reg *: 1%:M) \in unitmx.
Proof.
move=> HC; rewrite /ls_factor; case E : (chol _) => [r|//]; rewrite /solve.
case: ifP=> // U [<-]; have R := HC _ _ E; rewrite -R mulmx1; split; last by rewrite unitmx_mul unitmx_tr U.
rewrite trmx_inv mulmxA mulmxA -[_ *m r *m _]mulmxA mulmxV // mulmx1 mulmxV ?unitmx_tr // mul1mx.
by [].
Qed.
Definition dot n (u v : 'cV[F]_n) : F := (u^T *m v) 0 0.
Lemma dotE n (u v : 'cV[F]_n) : dot u v = \sum_i u i 0 * v i 0.
Proof. by rewrite /dot mxE; apply: eq_bigr=> i _; rewrite mxE. Qed.
Lemma norm2D n (u v : 'cV[F]_n) : norm2 (u + v) = norm2 u + dot u v *+ 2 + norm2 v.
Proof.
rewrite /norm2 dotE -sumrMnl -!big_split /=; apply: eq_bigr=> i _.
by rewrite mxE sqrrD.
Qed.
Lemma norm2_ge0 n (u : 'cV[F]_n) : 0 <= norm2 u.
Proof. by apply: sumr_ge0=> i _; apply: sqr_ge0. Qed.
Lemma add_threes (a b c d e f : F) : (a + b + c) + (d + e + f) = a + d + ((b + e) + (c + f)).
Proof. by rewrite (addrACA (a + b)) (addrACA a) !addrA. Qed.
Lemma ls_minimises s k chol (psi : 'M[F]_(s, k)) reg l y d : factors chol -> 0 <= reg ->
  ls_factor chol psi reg = Ok l ->
  norm2 (psi *m (l *m y) - y) + reg * norm2 (l *m y) <= norm2 (psi *m d - y) + reg * norm2 d.
Proof.
move=> HC R0 /(ls_factorP HC) [E _]; set c := l *m y.
have N : (psi^T *m psi + reg *: 1%:M) *m c = psi^T *m y by rewrite /c mulmxA E.
pose e := d - c.
have Ed : d = c + e by rewrite /e addrC subrK.
have Ey : psi *m d - y = (psi *m c - y) + psi *m e by rewrite Ed mulmxDr addrAC.
rewrite Ey [in norm2 d]Ed (norm2D (psi *m c - y) (psi *m e)) (norm2D c e).
have Z : dot (psi *m c - y) (psi *m e) + reg * dot c e = 0.
  rewrite /dot; have -> : reg * (c^T *m e) 0 0 = ((reg *: c)^T *m e) 0 0 by rewrite linearZ /= -scalemxAl [RHS]mxE.
  have -> : (psi *m c - y)^T *m (psi *m e) = (psi^T *m (psi *m c - y))^T *m e by rewrite trmx_mul trmxK mulmxA.
  rewrite -[LHS]/((_ : 'M[F]_1) 0 0 + (_ : 'M[F]_1) 0 0).
  have <- : (((psi^T *m (psi *m c - y))^T *m e) + ((reg *: c)^T *m e)) 0 0 = ((psi^T *m (psi *m c - y))^T *m e) 0 0 + ((reg *: c)^T *m e) 0 0 by rewrite mxE.
  rewrite -mulmxDl -linearD /=.
  have -> : psi^T *m (psi *m c - y) + reg *: c = 0.
    rewrite mulmxBr addrAC; move: N; rewrite mulmxDl -scalemxAl mul1mx mulmxA => ->.
    by rewrite subrr.
  by rewrite trmx0 mul0mx mxE.
have -> : norm2 (psi *m c - y) + dot (psi *m c - y) (psi *m e) *+ 2 + norm2 (psi *m e) +
          reg * (norm2 c + dot c e *+ 2 + norm2 e) =
          norm2 (psi *m c - y) + reg * norm2 c +
          ((dot (psi *m c - y) (psi *m e) + reg * dot c e) *+ 2 + (norm2 (psi *m e) + reg * norm2 e)).
  by rewrite 2!mulrDr mulrnAr mulrnDl add_threes.
rewrite Z mul0rn add0r ler_addl.
by apply: addr_ge0; [apply: norm2_ge0 | apply: mulr_ge0=> //; apply: norm2_ge0].
Qed.
Lemma ls_exact s k chol (psi : 'M[F]_(s, k)) l : factors chol -> ls_factor chol psi 0 = Ok l -> l *m psi = 1%:M.
Proof.
move=> HC /(ls_factorP HC); rewrite scale0r addr0 => -[E U].
by rewrite -[l]mul1mx -(mulVmx U) -[invmx _ *m _ *m l]mulmxA E -mulmxA mulVmx.
Qed.

Lemma ls_recovers n s k chol (psi : 'M[F]_(s, k)) l (a : 'M[F]_(n, k)) :
  factors chol -> ls_factor chol psi 0 = Ok l -> coefficients l (a *m psi^T) = a.
Proof.
by move=> HC H; rewrite /coefficients [(_ *m psi^T)^T]trmx_mul trmxK mulmxA (ls_exact HC H) mul1mx trmxK.
Qed.

(** ** The polynomial chaos filter on affine systems *)

Lemma chaos_affine n m q k chol (psi : 'M[F]_(k.+1)) (sig : 'I_q -> 'I_k.+1) l (xi : 'M[F]_(q, k.+1))
    (x : 'cV[F]_n) (M : 'M[F]_(n, q)) (C : 'M[F]_(m, n)) (d : 'cV[F]_m) Rv Rn y r :
  factors chol -> ls_factor chol psi 0 = Ok l ->
  (forall s, psi s ord0 = 1) -> (forall s j, psi s (sig j) = xi j s) -> injective sig -> (forall j, sig j != ord0) ->
  symmetric Rn ->
  chaos_correct l (\matrix_(i, s) (x + M *m col s xi) i 0) (\matrix_(i, s) (C *m (x + M *m col s xi) + d) i 0)
                Rv Rn y = Ok r ->
  exists p', kalman_update (M *m M^T) C Rn x (C *m x + d) y (e_mean r) p' /\ e_cov r = p' + Rv.
Proof.
move=> HC HL P0 PJ SI S0 /symP HR.
have LE := ls_exact HC HL.
pose one : 'rV[F]_(k.+1) := \row_c (c == ord0)%:R.
pose E : 'M[F]_(q, k.+1) := \matrix_(j, c) (c == sig j)%:R.
have K0 : one *m psi^T = const_mx 1.
  apply/rowP=> s; rewrite !mxE (bigD1 ord0) //= big1 ?addr0; first by rewrite !mxE eqxx mul1r P0.
  by move=> c /negbTE H; rewrite !mxE H mul0r.
have KE : E *m psi^T = xi.
  apply/matrixP=> j s; rewrite !mxE (bigD1 (sig j)) //= big1 ?addr0; first by rewrite !mxE eqxx mul1r PJ.
  by move=> c /negbTE H; rewrite !mxE H mul0r.
have CO p (v : 'cV[F]_p) (N : 'M[F]_(p, q)) :
    coefficients l (\matrix_(i, s) (v + N *m col s xi) i 0) = v *m one + N *m E.
  have -> : (\matrix_(i, s) (v + N *m col s xi) i 0 : 'M[F]_(p, k.+1)) = (v *m one + N *m E) *m psi^T.
    rewrite mulmxDl -!mulmxA K0 KE; apply/matrixP=> i s; rewrite !mxE big_ord1 mxE mulr1; congr (_ + _).
    by apply: eq_bigr=> j _; rewrite mxE.
  by rewrite /coefficients [(_ *m psi^T)^T]trmx_mul trmxK mulmxA LE mul1mx trmxK.
move=> /chaos_form [K] [].
have -> : (\matrix_(i, s) (C *m (x + M *m col s xi) + d) i 0 : 'M[F]_(m, k.+1)) =
          \matrix_(i, s) ((C *m x + d) + (C *m M) *m col s xi) i 0.
  apply/matrixP=> i s; rewrite mxE [RHS]mxE; congr ((_ : 'cV[F]_m) i 0).
  by rewrite mulmxDr mulmxA addrAC.
rewrite !CO; set es := [seq c : 'I__ <- _ | _].
have c0 p (v : 'cV[F]_p) (N : 'M[F]_(p, q)) : col ord0 (v *m one + N *m E) = v.
  apply/colP=> i; rewrite !mxE big_ord1 mxE eqxx mulr1 big1 ?addr0 // => j _.
  by rewrite mxE eq_sym (negbTE (S0 j)) mulr0.
have cc p p' (v : 'cV[F]_p) (N : 'M[F]_(p, q)) (v' : 'cV[F]_p') (N' : 'M[F]_(p', q)) :
    \sum_(c <- es) 1 *: (col c (v *m one + N *m E) *m (col c (v' *m one + N' *m E))^T) = N *m N'^T.
  have EE : E *m E^T = 1%:M.
    apply/matrixP=> i j; rewrite !mxE (bigD1 (sig i)) //= big1 ?addr0.
      by rewrite !mxE eqxx mul1r (inj_eq SI).
    by move=> c /negbTE H; rewrite !mxE H mul0r.
  have -> : N *m N'^T = (N *m E) *m (N' *m E)^T by rewrite trmx_mul mulmxA -[N *m E *m _]mulmxA EE mulmx1.
  apply/matrixP=> i j; rewrite summxE [RHS]mxE big_filter big_enum_cond /= [RHS](bigD1 ord0) //=.
  rewrite [X in _ = X + _](_ : _ = 0) ?add0r.
    rewrite [RHS](eq_bigl (fun c : 'I_k.+1 => (0 < c < k.+1)%N)); last first.
      by move=> c; rewrite ltn_ord andbT lt0n.
    apply: eq_bigr=> c /andP [c1 _]; rewrite scale1r mxE big_ord1; congr (_ * _).
      by rewrite !mxE big_ord1 mxE -val_eqE /= -[X in _ == X]/0%N (gtn_eqF c1) mulr0 add0r.
    by rewrite !mxE big_ord1 mxE -val_eqE /= (gtn_eqF c1) mulr0 add0r.
  by rewrite mxE big1 ?mul0r // => a _; rewrite mxE eq_sym (negbTE (S0 a)) mulr0.
rewrite !c0 !cc => E1 E2 E3.
have T1 : C *m M *m (C *m M)^T = C *m (M *m M^T) *m C^T by rewrite trmx_mul !mulmxA.
have T2 : M *m (C *m M)^T = M *m M^T *m C^T by rewrite trmx_mul !mulmxA.
rewrite T1 T2 in E1; rewrite T1 in E3.
exists ((1%:M - K *m C) *m (M *m M^T)); split; first by exists K.
rewrite E3 addrAC; congr (_ + _).
rewrite mulmxBl mul1mx; congr (_ - _).
set P := M *m M^T in E1 *.
have PT : P^T = P by rewrite /P trmx_mul trmxK.
have ST : (C *m P *m C^T + Rn)^T = C *m P *m C^T + Rn.
  by rewrite linearD /= HR [in LHS]trmx_mul [(C *m P)^T]trmx_mul trmxK PT mulmxA.
by rewrite -[X in K *m (X *m _)]ST -trmx_mul E1 trmx_mul trmxK PT mulmxA.
Qed.

(** ** A measurement never adds uncertainty *)

Lemma sampled_decrease n m (I : eqType) (l : seq I) (w : I -> F) (dz : I -> 'cV[F]_m) (Rn : 'M[F]_m) (K : 'M[F]_(n, m)) :
  {in l, forall i, 0 <= w i} -> covariance Rn ->
  covariance (K *m ((\sum_(i <- l) w i *: (dz i *m (dz i)^T) + Rn) *m K^T)).
Proof.
move=> W HR; rewrite mulmxA; apply: cov_congr; apply: covD=> //; apply/covP; split.
  by rewrite linear_sum; apply: eq_bigr=> t _; rewrite linearZ /= trmx_mul trmxK.
by apply: psd_sum_in=> t Ht; apply: psdZ; [apply: W | apply: psd_outer].
Qed.
Lemma unscented_decrease nx ny m chol simulate measure Rv Rn mean cov y (r : estimate F (nx + ny)) :
  covariance Rn ->
  unscented_step (m := m) chol simulate measure Rv Rn mean cov y = Ok r -> covariance (e_cov_pred r - e_cov r).
Proof.
move=> HR /unscented_step_form [pts [wm [wc [l [/sigma_form [q [_ W _]] _ U]]]]].
have [K [_ _ -> ->]] := unscented_form U; rewrite opprB addrC subrK.
apply: sampled_decrease=> // i /mem_zip_fst; have [_ _ _ P] := weights_shape W.
by move/P/ltW.
Qed.
Lemma extended_decrease nx ny m simulate linearise measure Rv Rn mean p_aug y (r : estimate F (nx + ny)) :
  covariance p_aug -> covariance Rv -> covariance Rn ->
  extended_step (m := m) simulate linearise measure Rv Rn mean p_aug y = Ok r -> covariance (e_cov_pred r - e_cov r).
Proof.
move=> HP HV HR /extended_step_form [s [tr [ga [g [z [_ _ _ E]]]]]].
have CP := p_update_cov tr ga HP HV.
have [K [G [_ [-> ->]]]] := extended_cov E; set P := p_update _ _ _ _ in CP G *.
rewrite mulmxBl mul1mx opprB addrC subrK.
have CS := covD (cov_congr g CP) HR.
have [PT _] := proj1 (covP _) CP; have [ST _] := proj1 (covP _) CS.
have -> : K *m g *m P = K *m (g *m P *m g^T + Rn) *m K^T.
  by rewrite -mulmxA -[in RHS]mulmxA; congr (_ *m _); rewrite -[in RHS]ST -trmx_mul G trmx_mul trmxK PT.
exact: cov_congr.
Qed.
Lemma chaos_pred n m s k (l : 'M[F]_(k.+1, s)) (xs : 'M[F]_(n, s)) (zs : 'M[F]_(m, s)) Rv Rn y r :
  chaos_correct l xs zs Rv Rn y = Ok r ->
  exists K, e_cov_pred r - e_cov r =
    K *m ((\sum_(c <- [seq c : 'I_k.+1 <- enum 'I_k.+1 | (0 < c < s)%N])
             1 *: (col c (coefficients l zs) *m (col c (coefficients l zs))^T) + Rn) *m K^T).
Proof.
rewrite /chaos_correct; set a := coefficients l xs; set b := coefficients l zs.
case E1 : (chaos_cov _ a a) => [p1|//]; case E2 : (chaos_cov _ b b) => [p2|//].
case E3 : (chaos_cov _ a b) => [p3|//]; case E : (solve _ _) => [g|//] [<-] /=.
by rewrite -(chaos_cov_sum E2); exists g^T; rewrite opprB addrC subrK.
Qed.
Lemma chaos_decrease n m s k (l : 'M[F]_(k.+1, s)) (xs : 'M[F]_(n, s)) (zs : 'M[F]_(m, s)) Rv Rn y r :
  covariance Rn -> chaos_correct l xs zs Rv Rn y = Ok r -> covariance (e_cov_pred r - e_cov r).
Proof.
move=> HR /chaos_pred [K ->].
by apply: (@sampled_decrease _ _ _ _ (fun=> 1) (fun c => col c _))=> // i _; apply: ler01.
Qed.
End Proofs.

(** Properties of the estimators. *)
From mathcomp Require Import all_ssreflect all_algebra.
From Verif Require Import KalModel KalSpec KalProofs KalMoreProofs KalWitnessProofs.
Set Implicit Arguments.
Unset Strict Implicit.
Unset Printing Implicit Defensive.
Import Order.TTheory GRing.Theory Num.Theory.
Local Open Scope ring_scope.

(** ** C53 *)

(** The weights: one per point, all positive, those of the mean sum to one.  A model
    without states has none. *)
Theorem C53_weights :
  forall (F : realFieldType) n,
    ((0 < n)%N -> exists wm wc, weights F n = Ok (wm, wc)) /\
    (weights F 0 = Raise Base.ZeroDivisionErr) /\
    forall wm wc, weights F n = Ok (wm, wc) ->
      [/\ size wm = (2 * n).+1, size wc = (2 * n).+1, \sum_(w <- wm) w = 1,
          {in wm, forall w, 0 < w} & {in wc, forall w, 0 < w}].
Proof.
exact (fun F n => conj (@weights_ok F n) (conj (weights_zero F) (fun wm wc H =>
  match weights_shape H with And4 a b c d => And5 a b (weights_sum H) c d end))).
Qed.
Print Assumptions C53_weights.

Example C53_weights_example : exists wm wc, weights [realFieldType of rat] 3 = Ok (wm, wc) /\ size wm = 7%N.
Proof. exact (weights_example _ (ltn0Sn 2)). Qed.

(** The weighted mean and covariance of the points are those they were made from. *)
Theorem C53_points :
  forall (F : realFieldType) n chol (mean : 'cV[F]_n) cov pts wm wc,
    factors chol -> sigma_points chol mean cov = Ok (pts, wm, wc) ->
    size pts = (2 * n).+1 /\
    (forall i, mean_of wm pts i = mean i 0) /\
    (forall i j, cov_of wc pts mean pts mean i j = cov i j).
Proof.
exact (fun F n chol mean cov pts wm wc HC H =>
  conj (sigma_size H) (conj (fun i => points_mean i H) (fun i j => points_cov i j HC H))).
Qed.
Print Assumptions C53_points.

(** So are those of their images under two affine functions. *)
Theorem C53_affine :
  forall (F : realFieldType) n q m (A : 'M[F]_(q, n)) (b : 'cV[F]_q) (C : 'M[F]_(m, n)) (d : 'cV[F]_m)
         chol mean cov pts wm wc,
    factors chol -> sigma_points chol mean cov = Ok (pts, wm, wc) ->
    (forall i, mean_of wm [seq A *m p + b | p <- pts] i = (A *m mean + b) i 0) /\
    (forall i j, cov_of wc [seq A *m p + b | p <- pts] (A *m mean + b)
                           [seq C *m p + d | p <- pts] (C *m mean + d) i j = (A *m cov *m C^T) i j).
Proof.
exact (fun F n q m A b C d chol mean cov pts wm wc HC H =>
  conj (fun i => image_mean A b i H) (fun i j => image_cov A b C d i j HC H)).
Qed.
Print Assumptions C53_affine.

Example C53_points_example :
  factors (one_root (scale1 [realFieldType of rat])) /\
  exists pts wm wc, sigma_points (one_root (scale1 _)) (1%:M : 'M[rat]_1) (scale1 _) = Ok (pts, wm, wc).
Proof. exact (conj (@one_root_factors _ _ _) (points_exist _)). Qed.

(** ** C54 *)

(** Every covariance along a run of the unscented filter, predicted, corrected or kept
    for the next step, is symmetric and semidefinite, for all models and measurements. *)
Theorem C54_unscented :
  forall (F : realFieldType) nx ny m (chol : 'M[F]_nx -> res 'M[F]_nx) r_v r_n mean cov calls rs,
    covariance r_v -> covariance r_n ->
    unscented_run (ny := ny) (m := m) chol r_v r_n mean cov calls = Ok rs ->
    forall r, List.In r rs -> [/\ covariance (e_cov r), covariance (e_cov_pred r) & covariance (next_state r).2].
Proof. exact unscented_run_psd. Qed.
Print Assumptions C54_unscented.

Example C54_unscented_example :
  exists rs, unscented_run (one_root (scale1 _)) 1%:M 1%:M (1%:M : 'M[rat]_1) (scale1 _)
               [:: (@hold _, @read _, 0)] = Ok rs /\ size rs = 1%N /\
             forall r, List.In r rs -> covariance (e_cov r).
Proof. exact (hold_run_example (1%:M : 'M[rat]_1) 0). Qed.

(** The same for the extended filter, if the first covariance is so. *)
Theorem C54_extended :
  forall (F : realFieldType) nx ny m r_v r_n mean p_aug calls (rs : seq (estimate F (nx + ny))),
    covariance p_aug -> covariance r_v -> covariance r_n ->
    extended_run (m := m) r_v r_n mean p_aug calls = Ok rs ->
    forall r, List.In r rs -> covariance (e_cov r) /\ covariance (e_cov_pred r).
Proof. exact extended_run_psd. Qed.
Print Assumptions C54_extended.

Example C54_extended_example :
  exists rs, extended_run 1%:M 1%:M (1%:M : 'M[rat]_1) (1%:M : 'M[rat]_(1 + 0))
               [seq (@hold _, @flat _, @read _, y) | y <- [:: 0; 1%:M; 0]] = Ok rs.
Proof. exact (hold_extended_run (1%:M : 'M[rat]_1) [:: 0; 1%:M; 0] (cov_one _ (1 + 0))). Qed.

(** And for the correction of the polynomial chaos filter. *)
Theorem C54_chaos :
  forall (F : realFieldType) n m s k (l : 'M[F]_(k.+1, s)) (xs : 'M[F]_(n, s)) (zs : 'M[F]_(m, s)) r_v r_n y r,
    covariance r_v -> covariance r_n -> chaos_correct l xs zs r_v r_n y = Ok r -> covariance (e_cov r).
Proof. exact chaos_psd. Qed.
Print Assumptions C54_chaos.

Example C54_chaos_example (x : 'cV[rat]_3) M C d :
  exists l r, ls_factor (one_root two4) corners 0 = Ok l /\
    chaos_correct l (\matrix_(i, s) (x + M *m col s germs) i 0) (\matrix_(i, s) (C *m (x + M *m col s germs) + d) i 0)
                  1%:M (1%:M : 'M[rat]_2) 0 = Ok r.
Proof. exact (corners_affine x M C d). Qed.

(** Symmetry alone needs only symmetric noise. *)
Theorem C54_symmetric :
  forall (F : realFieldType) nx ny m r_v r_n mean y (r : estimate F (nx + ny)),
    symmetric r_v -> symmetric r_n ->
    (forall chol simulate measure cov,
       unscented_step (m := m) chol simulate measure r_v r_n mean cov y = Ok r ->
       symmetric (e_cov r) /\ symmetric (next_state r).2) /\
    (forall simulate linearise measure p_aug, symmetric p_aug ->
       extended_step (m := m) simulate linearise measure r_v r_n mean p_aug y = Ok r -> symmetric (e_cov r)).
Proof.
exact (fun F nx ny m r_v r_n mean y r HV HR =>
  conj (fun chol sim mea cov H => unscented_symmetric HV HR H)
       (fun sim lin mea p HP H => extended_step_symmetric HP HV HR H)).
Qed.
Print Assumptions C54_symmetric.

(** A measurement never adds uncertainty. *)
Theorem C54_decrease :
  forall (F : realFieldType) nx ny m r_v r_n mean y (r : estimate F (nx + ny)),
    covariance r_n ->
    (forall chol simulate measure cov,
       unscented_step (m := m) chol simulate measure r_v r_n mean cov y = Ok r ->
       covariance (e_cov_pred r - e_cov r)) /\
    (forall simulate linearise measure p_aug, covariance p_aug -> covariance r_v ->
       extended_step (m := m) simulate linearise measure r_v r_n mean p_aug y = Ok r ->
       covariance (e_cov_pred r - e_cov r)).
Proof.
exact (fun F nx ny m r_v r_n mean y r HR =>
  conj (fun chol sim mea cov H => unscented_decrease HR H)
       (fun sim lin mea p HP HV H => extended_decrease HP HV HR H)).
Qed.
Print Assumptions C54_decrease.

Example C54_decrease_example :
  exists r, unscented_step (one_root (scale1 _)) (@hold _) (@read _) 1%:M 1%:M (1%:M : 'M[rat]_1) (scale1 _) 0 = Ok r /\
            covariance (e_cov_pred r - e_cov r).
Proof. exact (hold_decrease_example (1%:M : 'M[rat]_1) 0). Qed.

(** With positive definite measurement noise a step never fails on its own account: it
    succeeds whenever the simulation, the linearisation, the measurement function and
    the factorisation do. *)
Theorem C54_succeeds :
  forall (F : realFieldType) nx ny m (r_v : 'M[F]_nx) (r_n : 'M[F]_m) mean y
         (simulate : 'cV[F]_nx -> res ('cV[F]_nx * 'cV[F]_ny)) measure,
    positive r_n ->
    (forall p, exists s, simulate p = Ok s) -> (forall x z, exists v, measure x z = Ok v) ->
    (forall chol cov root, (0 < nx)%N -> chol ((nx%:R + lamb F nx) *: cov) = Ok root ->
       exists r, unscented_step chol simulate measure r_v r_n mean cov y = Ok r) /\
    (forall linearise p_aug, covariance p_aug -> covariance r_v ->
       (forall x z, exists t, linearise x z = Ok t) ->
       exists r, extended_step simulate linearise measure r_v r_n mean p_aug y = Ok r).
Proof.
exact (fun F nx ny m r_v r_n mean y sim mea HR HS HM =>
  conj (fun chol cov root n0 C => unscented_succeeds r_v mean y n0 C HS HM HR)
       (fun lin p HP HV HL => extended_succeeds mean y HP HV HR HS HL HM)).
Qed.
Print Assumptions C54_succeeds.

Example C54_succeeds_example : positive (1%:M : 'M[rat]_2).
Proof. exact (positive_one _ 2). Qed.

(** ** C74 *)

(** The extended filter makes exactly the Kalman update of its linearisation. *)
Theorem C74_extended :
  forall (F : realFieldType) nx ny m simulate linearise measure r_v r_n mean p_aug y (r : estimate F (nx + ny)),
    extended_step (m := m) simulate linearise measure r_v r_n mean p_aug y = Ok r ->
    exists s trans gamma g z,
      [/\ simulate mean = Ok s, linearise s.1 s.2 = Ok (trans, gamma, g), measure s.1 s.2 = Ok z
        & kalman_update (trans *m p_aug *m trans^T + gamma *m r_v *m gamma^T) g r_n (col_mx s.1 s.2) z y
                        (e_mean r) (e_cov r)].
Proof. exact extended_step_kalman. Qed.
Print Assumptions C74_extended.

Example C74_extended_example :
  exists r, extended_step (@hold _) (@flat _) (@read _) 1%:M 1%:M (1%:M : 'M[rat]_1) 1%:M 0 = Ok r.
Proof. exact (hold_extended 1%:M 0 (cov_one _ (1 + 0))). Qed.

(** On an affine system the unscented filter makes the Kalman update of the prediction
    without process noise, and then adds the process noise to the covariance of the
    states. *)
Theorem C74_unscented_affine :
  forall (F : realFieldType) nx ny m chol (A1 : 'M[F]_nx) b1 (A2 : 'M[F]_(ny, nx)) b2 (C : 'M[F]_(m, nx + ny)) d
         r_v r_n mean cov y (r : estimate F (nx + ny)),
    factors chol -> symmetric r_n ->
    unscented_step chol (fun p => Ok (A1 *m p + b1, A2 *m p + b2)) (fun x z => Ok (C *m col_mx x z + d))
                   r_v r_n mean cov y = Ok r ->
    let A := col_mx A1 A2 in
    let x := A *m mean + col_mx b1 b2 in
    exists p', kalman_update (A *m cov *m A^T) C r_n x (C *m x + d) y (e_mean r) p' /\
               e_cov r = p' + block_mx r_v 0 0 0.
Proof. exact unscented_affine. Qed.
Print Assumptions C74_unscented_affine.

Example C74_unscented_example :
  exists r, unscented_step (one_root (scale1 _)) (@hold _) (@read _) 0 1%:M (1%:M : 'M[rat]_1) (scale1 _) 0 = Ok r.
Proof. exact (hold_step 0 (1%:M : 'M[rat]_1) 0). Qed.

(** So with process noise it is not the Kalman filter: the gain ignores the noise.  One
    state that stays, measured directly. *)
Theorem C74_process_noise_refuted :
  exists (chol : 'M[rat]_1 -> res 'M[rat]_1) (cov : 'M[rat]_1) (r : estimate [realFieldType of rat] (1 + 0)),
    factors chol /\
    unscented_step chol (fun x => Ok (1%:M *m x + 0, 0 *m x + 0)) (fun x z => Ok (row_mx 1%:M 0 *m col_mx x z + 0))
                   1%:M 1%:M 0 cov 1%:M = Ok r /\
    ~ kalman_update (col_mx 1%:M 0 *m cov *m (col_mx 1%:M (0 : 'M[rat]_(0, 1)))^T + block_mx 1%:M 0 0 0)
                    (row_mx 1%:M 0) 1%:M (col_mx 0 0) 0 1%:M (e_mean r) (e_cov r).
Proof.
exact (match hold_step (1%:M : 'M[rat]_1) 0 1%:M with
       | ex_intro r E => ex_intro _ (one_root (scale1 _)) (ex_intro _ (scale1 _) (ex_intro _ r
           (conj (@one_root_factors _ _ _) (conj E (process_noise_ignored E)))))
       end).
Qed.
Print Assumptions C74_process_noise_refuted.

(** The polynomial chaos filter does the same where the samples depend affinely on
    independent quantities that the basis contains: the prediction has the covariance of
    the affine map, and the process noise comes after the update. *)
Theorem C74_chaos_affine :
  forall (F : realFieldType) n m q k chol (psi : 'M[F]_(k.+1)) (sig : 'I_q -> 'I_k.+1) l (xi : 'M[F]_(q, k.+1))
         (x : 'cV[F]_n) (M : 'M[F]_(n, q)) (C : 'M[F]_(m, n)) (d : 'cV[F]_m) r_v r_n y r,
    factors chol -> ls_factor chol psi 0 = Ok l ->
    (forall s, psi s ord0 = 1) -> (forall s j, psi s (sig j) = xi j s) -> injective sig ->
    (forall j, sig j != ord0) -> symmetric r_n ->
    chaos_correct l (\matrix_(i, s) (x + M *m col s xi) i 0) (\matrix_(i, s) (C *m (x + M *m col s xi) + d) i 0)
                  r_v r_n y = Ok r ->
    exists p', kalman_update (M *m M^T) C r_n x (C *m x + d) y (e_mean r) p' /\ e_cov r = p' + r_v.
Proof. exact chaos_affine. Qed.
Print Assumptions C74_chaos_affine.

Example C74_chaos_example :
  exists l r,
    ls_factor (one_root two4) corners 0 = Ok l /\
    chaos_correct l (\matrix_(i, s) (1%:M *m 0 + 1%:M *m col s germs) i 0)
                    (\matrix_(i, s) (0 *m (1%:M *m 0 + 1%:M *m col s germs) + 0) i 0)
                  1%:M (1%:M : 'M[rat]_2) 0 = Ok r /\
    (forall s, corners s ord0 = 1) /\ (forall s j, corners s (lift ord0 j) = germs j s).
Proof.
have [l [r [E R]]] := corners_affine (1%:M *m 0) 1%:M 0 0; exists l, r; split=> //; split=> //; split.
  exact: corners_one.
by move=> s j; rewrite [RHS]mxE.
Qed.

(** ** C75 *)

(** The least squares factor minimises the regularised squared error over all
    coefficients. *)
Theorem C75_least_squares :
  forall (F : realFieldType) s k chol (psi : 'M[F]_(s, k)) reg l,
    factors chol -> 0 <= reg -> ls_factor chol psi reg = Ok l ->
    forall y c, norm2 (psi *m (l *m y) - y) + reg * norm2 (l *m y) <= norm2 (psi *m c - y) + reg * norm2 c.
Proof. exact (fun F s k chol psi reg l HC R0 H y c => ls_minimises y c HC R0 H). Qed.
Print Assumptions C75_least_squares.

(** Without regularisation it recovers the coefficients of every combination of the
    basis. *)
Theorem C75_recovers :
  forall (F : realFieldType) n s k chol (psi : 'M[F]_(s, k)) l (a : 'M[F]_(n, k)),
    factors chol -> ls_factor chol psi 0 = Ok l -> coefficients l (a *m psi^T) = a.
Proof. exact (fun F n s k chol psi l a => ls_recovers a). Qed.
Print Assumptions C75_recovers.

Example C75_example : factors (one_root two4) /\ exists l, ls_factor (one_root two4) corners 0 = Ok l.
Proof. exact (conj (@one_root_factors _ _ _) corners_factor). Qed.

(** The polynomial chaos filter needs at most as many samples as coefficients: with more
    it fails whatever it is given, otherwise positive definite measurement noise makes it
    succeed. *)
Theorem C75_samples :
  forall (F : realFieldType) n m s k (l : 'M[F]_(k.+1, s)) (xs : 'M[F]_(n, s)) (zs : 'M[F]_(m, s)) r_v r_n y,
    (0 < n)%N -> positive r_n ->
    ((k.+1 < s)%N -> chaos_correct l xs zs r_v r_n y = Raise Base.CasadiError) /\
    ((s <= k.+1)%N -> exists r, chaos_correct l xs zs r_v r_n y = Ok r).
Proof.
exact (fun F n m s k l xs zs r_v r_n y n0 HR =>
  conj (fun H => chaos_fails l xs zs r_v r_n y n0 H) (fun H => chaos_succeeds l xs zs r_v y H HR)).
Qed.
Print Assumptions C75_samples.

Example C75_samples_example :
  chaos_correct (0 : 'M[rat]_(3, 5)) (0 : 'M[rat]_(2, 5)) (0 : 'M[rat]_(1, 5)) 0 1%:M 0 = Raise Base.CasadiError.
Proof. exact: (proj1 (C75_samples _ _ _ _ _ _ (positive_one _ 1))). Qed.

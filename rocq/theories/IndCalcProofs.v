(** Calculus over the rationals: the expressions computed by [diff] are derivatives. *)
From Coq Require Import Qabs Qminmax Qfield Lqa.
From Verif Require Import Base BaseProofs ExprModel ExprProofs DiscModel IndSpec.
Local Open Scope Q_scope.

Lemma qabs_pos_lt : forall q, ~ q == 0 -> 0 < Qabs q.
Proof.
  intros q H. apply Qabs_case; intros; [|]; destruct (Q_dec q 0) as [[L|L]|E]; try lra; contradiction.
Qed.
Lemma qabs_mult_le : forall a b x y, Qabs a <= x -> Qabs b <= y -> Qabs (a * b) <= x * y.
Proof.
  intros a b x y Ha Hb. rewrite Qabs_Qmult. pose proof (Qabs_nonneg a). pose proof (Qabs_nonneg b). nra.
Qed.
Lemma qabs_add_le : forall a b x y, Qabs a <= x -> Qabs b <= y -> Qabs (a + b) <= x + y.
Proof. intros a b x y Ha Hb. pose proof (Qabs_triangle a b). lra. Qed.

Lemma derivative_ext : forall f g x d d', (forall t, f t == g t) -> d == d' ->
    has_derivative f x d -> has_derivative g x d'.
Proof.
  intros f g x d d' E Ed H eps He. destruct (H eps He) as [delta [Hd K]]. exists delta. split; [exact Hd|].
  intros h Hh. rewrite <- (E (x + h)), <- (E x), <- Ed. apply K, Hh.
Qed.
Lemma derivative_const : forall q x, has_derivative (fun _ => q) x 0.
Proof.
  intros q x eps He. exists 1. split; [lra|]. intros h _.
  setoid_replace (q - q - 0 * h) with 0 by ring. change (Qabs 0) with 0. pose proof (Qabs_nonneg h). nra.
Qed.
Lemma derivative_id : forall x, has_derivative (fun t => t) x 1.
Proof.
  intros x eps He. exists 1. split; [lra|]. intros h _.
  setoid_replace (x + h - x - 1 * h) with 0 by ring. change (Qabs 0) with 0. pose proof (Qabs_nonneg h). nra.
Qed.
Lemma derivative_add : forall f g x a b, has_derivative f x a -> has_derivative g x b ->
    has_derivative (fun t => f t + g t) x (a + b).
Proof.
  intros f g x a b Hf Hg eps He.
  assert (He2 : 0 < eps * (1#2)) by lra.
  destruct (Hf _ He2) as [d1 [P1 K1]], (Hg _ He2) as [d2 [P2 K2]].
  exists (Qmin d1 d2). split; [apply Q.min_glb_lt; assumption|]. intros h Hh.
  assert (L1 : Qabs h < d1) by (eapply Qlt_le_trans; [exact Hh | apply Q.le_min_l]).
  assert (L2 : Qabs h < d2) by (eapply Qlt_le_trans; [exact Hh | apply Q.le_min_r]).
  setoid_replace (f (x + h) + g (x + h) - (f x + g x) - (a + b) * h)
    with ((f (x + h) - f x - a * h) + (g (x + h) - g x - b * h)) by ring.
  pose proof (qabs_add_le _ _ _ _ (K1 h L1) (K2 h L2)). lra.
Qed.
Lemma derivative_scale : forall f x a k, has_derivative f x a -> has_derivative (fun t => k * f t) x (k * a).
Proof.
  intros f x a k Hf eps He.
  assert (Hk : 0 < Qabs k + 1) by (pose proof (Qabs_nonneg k); lra).
  assert (He2 : 0 < eps / (Qabs k + 1)) by (apply Qlt_shift_div_l; [exact Hk | lra]).
  destruct (Hf _ He2) as [d [P K]]. exists d. split; [exact P|]. intros h Hh. specialize (K h Hh).
  setoid_replace (k * f (x + h) - k * f x - k * a * h) with (k * (f (x + h) - f x - a * h)) by ring.
  rewrite Qabs_Qmult.
  assert (E : eps / (Qabs k + 1) * (Qabs k + 1) == eps) by (field; lra).
  set (z := eps / (Qabs k + 1)) in *. set (w := Qabs (f (x + h) - f x - a * h)) in *.
  pose proof (Qabs_nonneg k). pose proof (Qabs_nonneg h).
  assert (w0 : 0 <= w) by apply Qabs_nonneg.
  rewrite <- E. assert (Qabs k * w <= Qabs k * (z * Qabs h)) by nra.
  assert (0 <= z * Qabs h) by nra. nra.
Qed.
Lemma derivative_sub : forall f g x a b, has_derivative f x a -> has_derivative g x b ->
    has_derivative (fun t => f t - g t) x (a - b).
Proof.
  intros f g x a b Hf Hg.
  apply (derivative_ext (fun t => f t + (-1) * g t) _ x (a + (-1) * b)); [intros; ring | ring |].
  apply derivative_add; [exact Hf | apply derivative_scale, Hg].
Qed.
(** A differentiable function changes by at most a multiple of the step. *)
Lemma derivative_lipschitz : forall f x a, has_derivative f x a ->
    exists delta, 0 < delta /\ forall h, Qabs h < delta -> Qabs (f (x + h) - f x) <= (Qabs a + 1) * Qabs h.
Proof.
  intros f x a H. destruct (H 1 ltac:(lra)) as [d [P K]]. exists d. split; [exact P|]. intros h Hh.
  specialize (K h Hh).
  setoid_replace (f (x + h) - f x) with ((f (x + h) - f x - a * h) + a * h) by ring.
  pose proof (Qabs_triangle (f (x + h) - f x - a * h) (a * h)). rewrite (Qabs_Qmult a h) in H0. lra.
Qed.
Lemma derivative_mul : forall f g x a b, has_derivative f x a -> has_derivative g x b ->
    has_derivative (fun t => f t * g t) x (a * g x + f x * b).
Proof.
  intros f g x a b Hf Hg eps He.
  destruct (derivative_lipschitz _ _ _ Hf) as [d3 [P3 K3]], (derivative_lipschitz _ _ _ Hg) as [d4 [P4 K4]].
  set (A := Qabs a + 1) in *. set (B := Qabs b + 1) in *.
  assert (PA : 0 < A) by (unfold A; pose proof (Qabs_nonneg a); lra).
  assert (PB : 0 < B) by (unfold B; pose proof (Qabs_nonneg b); lra).
  set (M := Qabs (f x) + Qabs (g x) + 1).
  assert (PM : 0 < M) by (unfold M; pose proof (Qabs_nonneg (f x)); pose proof (Qabs_nonneg (g x)); lra).
  assert (He2 : 0 < eps * (1#2) / M) by (apply Qlt_shift_div_l; [exact PM | lra]).
  destruct (Hf _ He2) as [d1 [P1 K1]], (Hg _ He2) as [d2 [P2 K2]].
  assert (PAB : 0 < A * B) by nra.
  assert (P5 : 0 < eps * (1#2) / (A * B)) by (apply Qlt_shift_div_l; [exact PAB | lra]).
  exists (Qmin (Qmin d1 d2) (Qmin (Qmin d3 d4) (eps * (1#2) / (A * B)))).
  split; [repeat apply Q.min_glb_lt; assumption|]. intros h Hh.
  apply Q.min_glb_lt_iff in Hh. destruct Hh as [Hh1 Hh2]. apply Q.min_glb_lt_iff in Hh1, Hh2.
  destruct Hh1 as [L1 L2], Hh2 as [Hh2 L5]. apply Q.min_glb_lt_iff in Hh2. destruct Hh2 as [L3 L4].
  specialize (K1 h L1). specialize (K2 h L2). specialize (K3 h L3). specialize (K4 h L4).
  set (e2 := eps * (1#2) / M) in *. set (d5 := eps * (1#2) / (A * B)) in *.
  assert (E2 : e2 * M == eps * (1#2)) by (unfold e2; field; lra).
  assert (E5 : d5 * (A * B) == eps * (1#2)) by (unfold d5; field; nra).
  setoid_replace (f (x + h) * g (x + h) - f x * g x - (a * g x + f x * b) * h)
    with ((f (x + h) - f x - a * h) * g x + f x * (g (x + h) - g x - b * h)
          + (f (x + h) - f x) * (g (x + h) - g x)) by ring.
  pose proof (qabs_mult_le _ _ _ _ K1 (Qle_refl (Qabs (g x)))) as T1.
  pose proof (qabs_mult_le _ _ _ _ (Qle_refl (Qabs (f x))) K2) as T2.
  pose proof (qabs_mult_le _ _ _ _ K3 K4) as T3.
  pose proof (qabs_add_le _ _ _ _ (qabs_add_le _ _ _ _ T1 T2) T3) as T.
  eapply Qle_trans; [exact T|]. clear T T1 T2 T3 K1 K2 K3 K4.
  set (H := Qabs h) in *. assert (H0 : 0 <= H) by apply Qabs_nonneg.
  set (FX := Qabs (f x)) in *. set (GX := Qabs (g x)) in *.
  assert (U1 : e2 * H * GX + FX * (e2 * H) <= eps * (1#2) * H).
  { rewrite <- E2. unfold M. assert (0 <= e2 * H) by nra. nra. }
  assert (U2 : A * H * (B * H) <= eps * (1#2) * H).
  { rewrite <- E5. assert (A * H * (B * H) == H * (A * B) * H) by ring. rewrite H1.
    assert (0 <= (A * B) * H) by nra. nra. }
  lra.
Qed.
(** The reciprocal. *)
Lemma derivative_inv : forall g x b, ~ g x == 0 -> has_derivative g x b ->
    has_derivative (fun t => / g t) x (- b / (g x * g x)).
Proof.
  intros g x b Nz Hg eps He.
  destruct (derivative_lipschitz _ _ _ Hg) as [d1 [P1 K1]].
  set (B := Qabs b + 1) in *.
  assert (PB : 0 < B) by (unfold B; pose proof (Qabs_nonneg b); lra).
  set (G := Qabs (g x)). assert (PG : 0 < G) by apply (qabs_pos_lt _ Nz).
  (* |g(x+h)| >= G/2 *)
  assert (P2 : 0 < G * (1#2) / B) by (apply Qlt_shift_div_l; [exact PB | lra]).
  set (e3 := eps * (1#4) * (G * G)). assert (P3 : 0 < e3) by (unfold e3; assert (0 < G * G) by nra; nra).
  destruct (Hg _ P3) as [d3 [Pd3 K3]].
  assert (PBB : 0 < B * B) by nra.
  set (d4 := eps * (1#4) * (G * G * G) / (B * B)).
  assert (P4 : 0 < d4).
  { unfold d4. apply Qlt_shift_div_l; [exact PBB|]. assert (0 < G * G * G) by (assert (0 < G * G) by nra; nra). nra. }
  exists (Qmin (Qmin d1 (G * (1#2) / B)) (Qmin d3 d4)).
  split; [repeat apply Q.min_glb_lt; assumption|]. intros h Hh.
  apply Q.min_glb_lt_iff in Hh. destruct Hh as [Hh1 Hh2]. apply Q.min_glb_lt_iff in Hh1, Hh2.
  destruct Hh1 as [L1 L2], Hh2 as [L3 L4].
  specialize (K1 h L1). specialize (K3 h L3).
  set (H := Qabs h) in *. assert (H0 : 0 <= H) by apply Qabs_nonneg.
  set (D := g (x + h) - g x) in *.
  assert (EG : G * (1#2) / B * B == G * (1#2)) by (field; lra).
  assert (E4 : d4 * (B * B) == eps * (1#4) * (G * G * G)) by (unfold d4; field; lra).
  set (z2 := G * (1#2) / B) in *.
  assert (HD : Qabs D <= G * (1#2)) by (eapply Qle_trans; [exact K1|]; nra).
  assert (Hg2 : G * (1#2) <= Qabs (g (x + h))).
  { assert (E : g x == g (x + h) + (- D)) by (unfold D; ring).
    assert (T : G <= Qabs (g (x + h)) + Qabs D).
    { unfold G. rewrite E. rewrite <- (Qabs_opp D). apply Qabs_triangle. }
    lra. }
  assert (Nh : ~ g (x + h) == 0).
  { intros Z. rewrite Z in Hg2. change (Qabs 0) with 0 in Hg2. lra. }
  assert (NG : ~ Qabs (g (x + h)) == 0) by lra.
  setoid_replace (/ g (x + h) - / g x - - b / (g x * g x) * h)
    with (((- g x) * (D - b * h) + (b * h) * D) * (/ (g x * g x * g (x + h)))).
  2:{ unfold D. field. split; assumption. }
  rewrite Qabs_Qmult.
  assert (Ei : Qabs (/ (g x * g x * g (x + h))) == / (G * G * Qabs (g (x + h)))).
  { rewrite Qabs_Qinv, !Qabs_Qmult. reflexivity. }
  rewrite Ei.
  assert (N1 : Qabs ((- g x) * (D - b * h) + (b * h) * D) <= G * (e3 * H) + (B * H) * (B * H)).
  { apply qabs_add_le; apply qabs_mult_le.
    - rewrite Qabs_opp. apply Qle_refl.
    - exact K3.
    - rewrite Qabs_Qmult. fold H. unfold B. pose proof (Qabs_nonneg b). nra.
    - exact K1. }
  set (N := Qabs ((- g x) * (D - b * h) + (b * h) * D)) in *.
  assert (PGG : 0 < G * G) by nra.
  assert (PGy : 0 < G * G * Qabs (g (x + h))) by nra.
  apply Qle_shift_div_r; [exact PGy|].
  (* N <= eps H G G |g(x+h)| *)
  assert (U : G * (e3 * H) + B * H * (B * H) <= eps * H * (G * G) * (G * (1#2))).
  { assert (U1 : B * H * (B * H) <= eps * (1#4) * (G * G * G) * H).
    { rewrite <- E4. assert (E : B * H * (B * H) == H * (B * B) * H) by ring. rewrite E.
      assert (0 <= (B * B) * H) by nra. nra. }
    unfold e3. assert (E : G * (eps * (1#4) * (G * G) * H) == eps * (1#4) * (G * G * G) * H) by ring. rewrite E.
    assert (E' : eps * H * (G * G) * (G * (1#2)) == eps * (1#2) * (G * G * G) * H) by ring. rewrite E'. lra. }
  assert (V : eps * H * (G * G) * (G * (1#2)) <= eps * H * (G * G) * Qabs (g (x + h))).
  { assert (0 <= eps * H) by nra. assert (0 <= eps * H * (G * G)) by nra. nra. }
  assert (W : eps * H * (G * G * Qabs (g (x + h))) == eps * H * (G * G) * Qabs (g (x + h))) by ring.
  rewrite W. lra.
Qed.
Lemma derivative_div : forall f g x a b, ~ g x == 0 -> has_derivative f x a -> has_derivative g x b ->
    has_derivative (fun t => f t / g t) x ((a * g x - f x * b) / (g x * g x)).
Proof.
  intros f g x a b Nz Hf Hg.
  apply (derivative_ext (fun t => f t * / g t) _ x (a * / g x + f x * (- b / (g x * g x))));
    [intros; reflexivity | field; exact Nz |].
  apply (derivative_mul f (fun t => / g t)); [exact Hf | apply derivative_inv; assumption].
Qed.
Lemma derivative_chain : forall (F g : Q -> Q) x D b, (forall u v, u == v -> F u == F v) ->
    has_derivative F (g x) D -> has_derivative g x b -> has_derivative (fun t => F (g t)) x (D * b).
Proof.
  intros F g x D b HF HD Hg eps He.
  destruct (derivative_lipschitz _ _ _ Hg) as [d1 [P1 K1]].
  set (B := Qabs b + 1) in *. assert (PB : 0 < B) by (unfold B; pose proof (Qabs_nonneg b); lra).
  set (E1 := eps * (1#2) / B). assert (PE1 : 0 < E1) by (apply Qlt_shift_div_l; [exact PB | lra]).
  destruct (HD _ PE1) as [d2 [P2 K2]].
  set (A := Qabs D + 1). assert (PA : 0 < A) by (unfold A; pose proof (Qabs_nonneg D); lra).
  set (E3 := eps * (1#2) / A). assert (PE3 : 0 < E3) by (apply Qlt_shift_div_l; [exact PA | lra]).
  destruct (Hg _ PE3) as [d3 [P3 K3]].
  assert (P4 : 0 < d2 / B) by (apply Qlt_shift_div_l; [exact PB | lra]).
  exists (Qmin (Qmin d1 d3) (d2 / B)). split; [repeat apply Q.min_glb_lt; assumption|]. intros h Hh.
  apply Q.min_glb_lt_iff in Hh. destruct Hh as [Hh L4]. apply Q.min_glb_lt_iff in Hh. destruct Hh as [L1 L3].
  specialize (K1 h L1). specialize (K3 h L3).
  set (H := Qabs h) in *. assert (H0 : 0 <= H) by apply Qabs_nonneg.
  set (dl := g (x + h) - g x) in *.
  assert (EB : d2 / B * B == d2) by (field; lra). set (z := d2 / B) in *.
  assert (EE1 : E1 * B == eps * (1#2)) by (unfold E1; field; lra).
  assert (EE3 : E3 * A == eps * (1#2)) by (unfold E3; field; lra).
  assert (Ld : Qabs dl < d2) by (eapply Qle_lt_trans; [exact K1|]; rewrite <- EB; nra).
  specialize (K2 dl Ld).
  assert (Eg : F (g (x + h)) == F (g x + dl)) by (apply HF; unfold dl; ring).
  rewrite Eg.
  setoid_replace (F (g x + dl) - F (g x) - D * b * h)
    with ((F (g x + dl) - F (g x) - D * dl) + D * (dl - b * h)) by ring.
  pose proof (qabs_mult_le _ _ _ _ (Qle_refl (Qabs D)) K3) as T2.
  pose proof (qabs_add_le _ _ _ _ K2 T2) as T. eapply Qle_trans; [exact T|].
  assert (U1 : E1 * Qabs dl <= eps * (1#2) * H) by (rewrite <- EE1; nra).
  assert (U2 : Qabs D * (E3 * H) <= eps * (1#2) * H).
  { rewrite <- EE3. unfold A. assert (0 <= E3 * H) by nra. nra. }
  lra.
Qed.
(** Derivatives are unique. *)
Lemma derivative_unique : forall f x a b, has_derivative f x a -> has_derivative f x b -> a == b.
Proof.
  intros f x a b Ha Hb. destruct (Q_dec a b) as [[L|L]|E]; [| |exact E]; exfalso.
  - set (eps := (b - a) * (1#3)). assert (He : 0 < eps) by (unfold eps; lra).
    destruct (Ha _ He) as [d1 [P1 K1]], (Hb _ He) as [d2 [P2 K2]].
    set (h := Qmin d1 d2 * (1#2)).
    assert (M : 0 < Qmin d1 d2) by (apply Q.min_glb_lt; assumption).
    assert (Ph : 0 < h) by (unfold h; lra).
    assert (Eh : Qabs h == h) by (apply Qabs_pos; lra).
    assert (L1 : Qabs h < d1) by (rewrite Eh; pose proof (Q.le_min_l d1 d2); unfold h; lra).
    assert (L2 : Qabs h < d2) by (rewrite Eh; pose proof (Q.le_min_r d1 d2); unfold h; lra).
    specialize (K1 h L1). specialize (K2 h L2). rewrite Eh in K1, K2.
    apply Qabs_Qle_condition in K1, K2. destruct K1 as [_ K1], K2 as [K2 _].
    unfold eps in *. nra.
  - set (eps := (a - b) * (1#3)). assert (He : 0 < eps) by (unfold eps; lra).
    destruct (Ha _ He) as [d1 [P1 K1]], (Hb _ He) as [d2 [P2 K2]].
    set (h := Qmin d1 d2 * (1#2)).
    assert (M : 0 < Qmin d1 d2) by (apply Q.min_glb_lt; assumption).
    assert (Ph : 0 < h) by (unfold h; lra).
    assert (Eh : Qabs h == h) by (apply Qabs_pos; lra).
    assert (L1 : Qabs h < d1) by (rewrite Eh; pose proof (Q.le_min_l d1 d2); unfold h; lra).
    assert (L2 : Qabs h < d2) by (rewrite Eh; pose proof (Q.le_min_r d1 d2); unfold h; lra).
    specialize (K1 h L1). specialize (K2 h L2). rewrite Eh in K1, K2.
    apply Qabs_Qle_condition in K1, K2. destruct K1 as [K1 _], K2 as [_ K2].
    unfold eps in *. nra.
Qed.

(** ** Expressions *)

Lemma with_value_same : forall F env s e, eval F (with_value env s (env s)) e = eval F env e.
Proof.
  intros F env s e. apply eval_ext. intros s' _. unfold with_value.
  destruct (Nat.eqb_spec s' s) as [->|]; reflexivity.
Qed.
Lemma diff_correct : forall F dfun env s e, respects F -> smooth F dfun env e ->
    partial F env e s (eval F env (diff dfun s e)).
Proof.
  intros F dfun env s e HF. unfold partial.
  induction e as [q|s'|o a IHa b IHb|f a IHa]; intros S.
  - apply (derivative_const q).
  - cbn [diff eval]. unfold with_value. destruct (Nat.eqb s' s) eqn:E.
    + apply derivative_id.
    + apply (derivative_const (env s')).
  - assert (Va : eval F (with_value env s (env s)) a = eval F env a) by apply with_value_same.
    assert (Vb : eval F (with_value env s (env s)) b = eval F env b) by apply with_value_same.
    destruct o; cbn [smooth] in S; try contradiction.
    + destruct S as [Sa Sb]. cbn [diff eval binop_eval]. apply derivative_add; auto.
    + destruct S as [Sa Sb]. cbn [diff eval binop_eval]. apply derivative_sub; auto.
    + destruct S as [Sa Sb]. cbn [diff eval binop_eval].
      pose proof (derivative_mul _ _ _ _ _ (IHa Sa) (IHb Sb)) as D. cbv beta in D. rewrite Va, Vb in D. exact D.
    + destruct S as [Sa [Sb Nz]]. cbn [diff eval binop_eval]. rewrite <- Vb in Nz.
      pose proof (derivative_div (fun v => eval F (with_value env s v) a) (fun v => eval F (with_value env s v) b)
                    _ _ _ Nz (IHa Sa) (IHb Sb)) as D. cbv beta in D.
      rewrite Va, Vb in D. exact D.
  - destruct S as [Sa Sf]. cbn [diff eval binop_eval].
    apply (derivative_chain (F f) (fun v => eval F (with_value env s v) a)); [intros; apply HF; assumption | | apply IHa, Sa].
    rewrite with_value_same. exact Sf.
Qed.
Lemma polynomial_smooth : forall F dfun env e, polynomial e = true -> smooth F dfun env e.
Proof.
  intros F dfun env e. induction e as [q|s'|o a IHa b IHb|f a IHa]; cbn [polynomial]; intros P; try exact I; try discriminate.
  destruct o; try discriminate; apply Bool.andb_true_iff in P; destruct P as [Pa Pb]; split; auto.
Qed.
Lemma polynomial_diff : forall dfun s e, polynomial e = true -> polynomial (diff dfun s e) = true.
Proof.
  intros dfun s e. induction e as [q|s'|o a IHa b IHb|f a IHa]; cbn [polynomial]; intros P; try reflexivity; try discriminate.
  destruct o; try discriminate; apply Bool.andb_true_iff in P; destruct P as [Pa Pb];
    cbn [diff polynomial]; rewrite ?IHa, ?IHb, ?Pa, ?Pb by assumption; reflexivity.
Qed.

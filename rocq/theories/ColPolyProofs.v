(** Derivatives of polynomial expressions, and lists of increasing times. *)
From Coq Require Import String Sorted SetoidList Lqa.
From Verif Require Import Base BaseProofs ExprModel ExprProofs SysModel LagModel LagSpec LagProofs
  DiscModel DiscSpec ColSpec.
Local Open Scope list_scope.
Local Open Scope Q_scope.

(** ** Derivatives *)

(** The derivative by Horner's rule. *)
Fixpoint dpoly (c : list Q) (t : Q) : Q :=
  match c with
  | [] => 0
  | _ :: c' => poly c' t + t * dpoly c' t
  end.

Lemma scaled_from_S : forall c n t,
    poly (scaled_from (S n) c) t == poly (scaled_from n c) t + poly c t.
Proof.
  induction c as [|a c IH]; intros n t; [reflexivity|].
  cbn [scaled_from poly]. rewrite IH. rewrite Nat2Z.inj_succ, <- Z.add_1_r, inject_Z_plus.
  change (inject_Z 1) with 1. ring.
Qed.
Lemma scaled_from_0 : forall c t, poly (scaled_from 0 c) t == t * dpoly c t.
Proof.
  induction c as [|a c IH]; intros t; [simpl; ring|].
  cbn [scaled_from poly dpoly]. rewrite scaled_from_S, IH. change (inject_Z (Z.of_nat 0)) with 0. ring.
Qed.
Lemma derivative_dpoly : forall c t, poly (derivative c) t == dpoly c t.
Proof.
  intros [|a c] t; [reflexivity|]. cbn [derivative dpoly]. rewrite scaled_from_S, scaled_from_0. ring.
Qed.

Fixpoint pmul (a b : list Q) : list Q :=
  match a with
  | [] => []
  | x :: a' => padd (pscale x b) (0 :: pmul a' b)
  end.
Lemma poly_pmul : forall a b t, poly (pmul a b) t == poly a t * poly b t.
Proof.
  induction a as [|x a IH]; intros b t; cbn [pmul poly]; [ring|].
  rewrite poly_padd, poly_pscale. cbn [poly]. rewrite IH. ring.
Qed.
Lemma dpoly_padd : forall a b t, dpoly (padd a b) t == dpoly a t + dpoly b t.
Proof.
  induction a as [|x a IH]; intros [|y b] t; cbn [padd dpoly]; try ring.
  rewrite poly_padd, IH. ring.
Qed.
Lemma dpoly_pscale : forall k a t, dpoly (pscale k a) t == k * dpoly a t.
Proof.
  induction a as [|x a IH]; intros t; cbn [pscale map dpoly]; [ring|].
  fold (pscale k a). rewrite poly_pscale, IH. ring.
Qed.
Lemma dpoly_pmul : forall a b t, dpoly (pmul a b) t == dpoly a t * poly b t + poly a t * dpoly b t.
Proof.
  induction a as [|x a IH]; intros b t; cbn [pmul poly dpoly]; [ring|].
  rewrite dpoly_padd, dpoly_pscale. cbn [dpoly]. rewrite poly_pmul, IH. ring.
Qed.

(** A polynomial that is zero everywhere has the derivative zero. *)
Definition first_numbers (n : nat) : list Q := map (fun i => inject_Z (Z.of_nat i)) (seq 0 n).
Lemma first_numbers_distinct : forall n, distinct (first_numbers n).
Proof.
  intros n j i Hj Hi E. unfold first_numbers in *. rewrite map_length, seq_length in Hj, Hi.
  assert (H : forall i, (i < n)%nat -> nth i (map (fun i => inject_Z (Z.of_nat i)) (seq 0 n)) 0 = inject_Z (Z.of_nat i)).
  { intros a Ha. rewrite (nth_indep _ _ (inject_Z (Z.of_nat 0))) by (rewrite map_length, seq_length; exact Ha).
    rewrite (map_nth (fun i => inject_Z (Z.of_nat i))), seq_nth by exact Ha. reflexivity. }
  rewrite (H j Hj), (H i Hi) in E. unfold Qeq in E. simpl in E. lia.
Qed.
Lemma zero_everywhere : forall c, (forall t, poly c t == 0) -> Forall (fun a => a == 0) c.
Proof.
  induction c as [|a c IH]; intros H; [constructor|].
  assert (Ha : a == 0). { specialize (H 0). cbn [poly] in H. rewrite <- H. ring. }
  constructor; [exact Ha|]. apply IH.
  apply (too_many_roots (map (fun q => q + 1) (first_numbers (length c)))).
  - intros j i Hj Hi E. rewrite map_length in *. apply first_numbers_distinct with (n := length c); try assumption.
    rewrite (nth_indep _ 0 (0 + 1) (n := j)) in E by (rewrite map_length; assumption).
    rewrite (nth_indep _ 0 (0 + 1) (n := i)) in E by (rewrite map_length; assumption).
    rewrite !(map_nth (fun q => q + 1)) in E. lra.
  - rewrite map_length. unfold first_numbers. rewrite map_length, seq_length. lia.
  - intros r Hr. apply in_map_iff in Hr. destruct Hr as [q [<- Hq]]. apply in_map_iff in Hq.
    destruct Hq as [i [<- _]]. specialize (H (inject_Z (Z.of_nat i) + 1)). cbn [poly] in H.
    rewrite Ha in H. assert (N : ~ inject_Z (Z.of_nat i) + 1 == 0).
    { intros E. unfold Qeq, inject_Z in E. simpl in E. lia. }
    assert (E : (inject_Z (Z.of_nat i) + 1) * poly c (inject_Z (Z.of_nat i) + 1) == 0) by lra.
    destruct (Qmult_integral _ _ E); [contradiction | assumption].
Qed.
Lemma zero_dpoly : forall c t, Forall (fun a => a == 0) c -> poly c t == 0 /\ dpoly c t == 0.
Proof.
  intros c t H. induction H as [|a c Ha Hc [IH1 IH2]]; [split; reflexivity|].
  cbn [poly dpoly]. rewrite IH1, IH2, Ha. split; ring.
Qed.
Lemma same_dpoly : forall c d, (forall t, poly c t == poly d t) -> forall t, dpoly c t == dpoly d t.
Proof.
  intros c d H t.
  assert (Z : Forall (fun a => a == 0) (padd c (pscale (-1) d))).
  { apply zero_everywhere. intros s. rewrite poly_padd, poly_pscale, H. ring. }
  destruct (zero_dpoly _ t Z) as [_ E]. rewrite dpoly_padd, dpoly_pscale in E. lra.
Qed.

(** Expressions that are polynomials of a symbol, with the derivative computed by [diff]. *)
Section Diff.
  Variable F : nat -> Q -> Q.
  Variable dfun : nat -> expr -> expr.
  Variable s : sym.
  Definition polynomial_in (env : sym -> Q) (e : expr) (c : list Q) : Prop :=
    forall t, eval F (upd env s t) e == poly c t /\ eval F (upd env s t) (diff dfun s e) == dpoly c t.

  Lemma polynomial_const : forall env q, polynomial_in env (EConst q) [q].
  Proof. intros env q t. simpl. split; ring. Qed.
  Lemma polynomial_self : forall env, polynomial_in env (EVar s) [0; 1].
  Proof.
    intros env t. cbn [eval diff]. rewrite Nat.eqb_refl. unfold upd. rewrite Nat.eqb_refl.
    cbn [poly dpoly eval]. split; ring.
  Qed.
  Lemma polynomial_var : forall env x, x <> s -> polynomial_in env (EVar x) [env x].
  Proof.
    intros env x H t. apply Nat.eqb_neq in H. cbn [eval diff]. rewrite H. unfold upd. rewrite H.
    cbn [poly dpoly eval]. split; ring.
  Qed.
  Lemma polynomial_add : forall env a b c d, polynomial_in env a c -> polynomial_in env b d ->
      polynomial_in env (EBin OAdd a b) (padd c d).
  Proof.
    intros env a b c d H1 H2 t. destruct (H1 t) as [A1 A2], (H2 t) as [B1 B2].
    cbn [eval diff binop_eval]. rewrite A1, A2, B1, B2, poly_padd, dpoly_padd. split; ring.
  Qed.
  Lemma polynomial_mul : forall env a b c d, polynomial_in env a c -> polynomial_in env b d ->
      polynomial_in env (EBin OMul a b) (pmul c d).
  Proof.
    intros env a b c d H1 H2 t. destruct (H1 t) as [A1 A2], (H2 t) as [B1 B2].
    cbn [eval diff binop_eval]. rewrite A1, A2, B1, B2, poly_pmul, dpoly_pmul. split; ring.
  Qed.
  (** The factor [(tau - r) / d]. *)
  Lemma polynomial_factor : forall env r d, ~ d == 0 ->
      polynomial_in env (EBin ODiv (EBin OSub (EVar s) (EConst r)) (EConst d)) [- r / d; 1 / d].
  Proof.
    intros env r d H t. cbn [eval diff binop_eval]. rewrite Nat.eqb_refl. unfold upd. rewrite Nat.eqb_refl.
    cbn [poly dpoly eval binop_eval]. split; field; exact H.
  Qed.

  Lemma polynomial_ell_acc : forall env roots j idx acc c,
      distinct roots -> (j < length roots)%nat -> (forall i, In i idx -> (i < length roots)%nat) ->
      polynomial_in env acc c ->
      exists d, polynomial_in env (fold_left
      (fun ell k =>
         if Nat.eqb k j then ell
         else EBin OMul ell
                (EBin ODiv (EBin OSub (EVar s) (EConst (nth k roots 0)))
                           (EConst (nth j roots 0 - nth k roots 0)))) idx acc) d.
  Proof.
    intros env roots j idx. induction idx as [|i idx IH]; intros acc c Hd Hj Hi H.
    - exists c. exact H.
    - cbn [fold_left]. destruct (Nat.eqb_spec i j) as [->|Hne].
      + apply (IH acc c); try assumption. intros a Ha; apply Hi; right; exact Ha.
      + eapply IH; try assumption. { intros a Ha; apply Hi; right; exact Ha. }
        apply polynomial_mul; [exact H|]. apply polynomial_factor.
        intros E. apply Hne. apply Hd; [apply Hi; left; reflexivity | exact Hj | lra].
  Qed.
  Lemma polynomial_ell : forall env roots idx j, distinct roots -> (j < length roots)%nat ->
      (forall i, In i idx -> (i < length roots)%nat) ->
      exists d, polynomial_in env (lagrange_ell s roots idx j) d.
  Proof.
    intros env roots idx j Hd Hj Hi. unfold lagrange_ell.
    eapply polynomial_ell_acc; try eassumption. apply polynomial_const.
  Qed.
  Lemma polynomial_sum : forall env (g : nat -> expr) idx acc c,
      polynomial_in env acc c -> (forall j, In j idx -> exists d, polynomial_in env (g j) d) ->
      exists d, polynomial_in env (fold_left (fun a j => EBin OAdd a (g j)) idx acc) d.
  Proof.
    intros env g idx. induction idx as [|j idx IH]; intros acc c H Hg; [exists c; exact H|].
    cbn [fold_left]. destruct (Hg j (or_introl eq_refl)) as [d Hd].
    apply (IH _ (padd c d)); [apply polynomial_add; assumption|]. intros a Ha; apply Hg; right; exact Ha.
  Qed.
  Lemma polynomial_combination : forall env roots first size n i,
      distinct roots -> length roots = n -> n <> O -> (i < size)%nat -> (s < first)%nat ->
      exists d, polynomial_in env (nth i (combination (basis_over s roots) first size n n) (EConst 0)) d.
  Proof.
    intros env roots first size n i Hd Hl Hn Hi Hs. unfold combination. destruct n as [|n]; [contradiction|].
    set (f := fun i0 : nat => fold_left _ (seq 0 (S n)) (EConst 0)).
    rewrite (nth_indep _ _ (f 0%nat)) by (rewrite map_length, seq_length; exact Hi).
    rewrite map_nth, seq_nth by exact Hi. unfold f.
    apply (polynomial_sum env (fun j => EBin OMul (nth j (basis_over s roots) (EConst 0))
                                                  (EVar (point_sym first (S n) (0 + i) j))) _ _ [0]).
    - apply polynomial_const.
    - intros j Hj. apply in_seq in Hj.
      rewrite basis_nth by lia.
      destruct (polynomial_ell env roots (seq 0 (length roots)) j Hd) as [d Hd'];
        [lia | intros a Ha; apply in_seq in Ha; lia|].
      eexists. apply polynomial_mul; [exact Hd'|]. apply polynomial_var. unfold point_sym. lia.
  Qed.
End Diff.

Lemma upd_same_ext : forall F env s e, eval F (upd env s (env s)) e = eval F env e.
Proof.
  intros F env s e. apply eval_ext. intros x _. unfold upd. destruct (Nat.eqb_spec x s) as [->|]; reflexivity.
Qed.
Lemma upd_other : forall env s t x, x <> s -> upd env s t x = env x.
Proof. intros env s t x H. apply Nat.eqb_neq in H. unfold upd. rewrite H. reflexivity. Qed.

(** The combination of the basis with the values of a polynomial is that polynomial, and
    its derivative with respect to the symbol is the derivative. *)
Lemma combination_polynomial : forall F dfun s roots first size c i rho,
    distinct roots -> roots <> [] -> (length c <= length roots)%nat -> (i < size)%nat -> (s < first)%nat ->
    (forall j, (j < length roots)%nat -> rho (point_sym first (length roots) i j) == poly c (nth j roots 0)) ->
    let e := nth i (combination (basis_over s roots) first size (length roots) (length roots)) (EConst 0) in
    eval F rho e == poly c (rho s) /\ eval F rho (diff dfun s e) == poly (derivative c) (rho s).
Proof.
  intros F dfun s roots first size c i rho Hd Hne Hl Hi Hs Hv e.
  assert (Hn : length roots <> O) by (destruct roots; [contradiction | discriminate]).
  assert (V : forall t, eval F (upd rho s t) e == poly c t).
  { intros t. unfold e. rewrite combination_nth by assumption.
    rewrite (terms_ext _ (fun j => eval F (upd rho s t) (nth j (basis_over s roots) (EConst 0)) * poly c (nth j roots 0))).
    - rewrite (interpolation_reproduces F (upd rho s t) s roots c Hd Hl). unfold upd. rewrite Nat.eqb_refl. reflexivity.
    - intros j Hj. rewrite upd_other by (unfold point_sym; lia). rewrite (Hv j Hj). reflexivity. }
  destruct (polynomial_combination F dfun s rho roots first size (length roots) i Hd eq_refl Hn Hi Hs) as [d Hdd].
  fold e in Hdd. split.
  - rewrite <- (upd_same_ext F rho s e). apply V.
  - rewrite <- (upd_same_ext F rho s (diff dfun s e)). rewrite (proj2 (Hdd (rho s))), derivative_dpoly.
    apply same_dpoly. intros t. rewrite <- V. symmetry. apply Hdd.
Qed.

(** Interpolating polynomials exist. *)
Lemma interpolant : forall roots (v : nat -> Q), distinct roots ->
    exists c, (length c <= length roots)%nat /\
      forall j, (j < length roots)%nat -> poly c (nth j roots 0) == v j.
Proof.
  intros roots v Hd. destruct (lagrange_sum_poly roots v (length roots) (le_n _)) as [c [Hl Hc]].
  exists c. split; [exact Hl|]. intros j Hj. rewrite Hc.
  rewrite <- (interpolation_at_point (fun _ q => q) (fun _ => nth j roots 0) 0%nat roots v j Hd Hj (Qeq_refl _)).
  apply terms_ext. intros i Hi. rewrite eval_basis by exact Hi. reflexivity.
Qed.

(** ** Increasing times *)

Lemma sorted_strongly : forall l, Sorted Qlt l -> StronglySorted Qlt l.
Proof. intros l H. apply Sorted_StronglySorted; [intros a b c; apply Qlt_trans | exact H]. Qed.

Lemma sorted_distinct : forall l, Sorted Qlt l -> distinct l.
Proof.
  intros l H. apply sorted_strongly in H.
  assert (L : forall l, StronglySorted Qlt l -> forall j k, (j < k)%nat -> (k < length l)%nat -> nth j l 0 < nth k l 0).
  { clear. intros l H. induction H as [|a l H IH Ha]; intros j k Hjk Hk; [simpl in Hk; lia|].
    destruct k as [|k]; [lia|]. simpl in Hk. cbn [nth]. destruct j as [|j].
    - rewrite Forall_forall in Ha. apply Ha. apply nth_In. lia.
    - apply IH; lia. }
  intros j k Hj Hk E. destruct (Nat.lt_trichotomy j k) as [X|[X|X]]; [|exact X|]; exfalso.
  - pose proof (L l H j k X Hk). lra.
  - pose proof (L l H k j X Hj). lra.
Qed.

Lemma insert_time_In : forall q l x, InA Qeq x (insert_time q l) <-> x == q \/ InA Qeq x l.
Proof.
  intros q l x. induction l as [|a l IH]; cbn [insert_time].
  - rewrite InA_cons. tauto.
  - destruct (Qeq_bool q a) eqn:E1.
    + apply Qeq_bool_iff in E1. rewrite InA_cons. split; [tauto|]. intros [H|H]; [|exact H]. left. rewrite H. exact E1.
    + destruct (Qle_bool q a); rewrite !InA_cons, ?IH; tauto.
Qed.
Lemma insert_time_sorted : forall q l, Sorted Qlt l -> Sorted Qlt (insert_time q l).
Proof.
  intros q l H. induction H as [|a l Hl IH Ha]; cbn [insert_time]; [repeat constructor|].
  destruct (Qeq_bool q a) eqn:E1; [constructor; assumption|].
  destruct (Qle_bool q a) eqn:E2.
  - constructor; [constructor; assumption|]. constructor. apply Qle_bool_iff in E2. apply Qeq_bool_neq in E1.
    apply Qle_lteq in E2. destruct E2; [assumption | contradiction].
  - constructor; [exact IH|].
    assert (L : a < q). { apply Qnot_le_lt. intros X. apply Qle_bool_iff in X. congruence. }
    destruct l as [|b l]; cbn [insert_time]; [constructor; exact L|].
    destruct (Qeq_bool q b); [exact Ha|]. destruct (Qle_bool q b); [constructor; exact L | constructor; inversion Ha; assumption].
Qed.
Lemma sort_times_sorted : forall l, Sorted Qlt (sort_times l).
Proof. induction l as [|a l IH]; cbn [sort_times fold_right]; [constructor | apply insert_time_sorted, IH]. Qed.
Lemma sort_times_In : forall l x, InA Qeq x (sort_times l) <-> InA Qeq x l.
Proof.
  induction l as [|a l IH]; intros x; cbn [sort_times fold_right]; [tauto|].
  rewrite insert_time_In, InA_cons. fold (sort_times l). rewrite IH. tauto.
Qed.
Lemma in_times_In : forall q l, in_times q l = true <-> InA Qeq q l.
Proof.
  intros q l. unfold in_times. rewrite existsb_exists, InA_alt. split; intros [x [H1 H2]]; exists x.
  - split; [apply Qeq_bool_iff, H2 | exact H1].
  - split; [exact H2 | apply Qeq_bool_iff, H1].
Qed.

Lemma filter_InA : forall (p : Q -> bool) l x, (forall a b, a == b -> p a = p b) ->
    InA Qeq x (filter p l) <-> InA Qeq x l /\ p x = true.
Proof.
  intros p l x Hp. rewrite !InA_alt. split.
  - intros [y [E H]]. apply filter_In in H. destruct H as [H1 H2]. split; [exists y; tauto|]. rewrite (Hp _ _ E). exact H2.
  - intros [[y [E H]] H2]. exists y. split; [exact E|]. apply filter_In. split; [exact H|]. rewrite <- (Hp _ _ E). exact H2.
Qed.
Lemma filter_sorted : forall (p : Q -> bool) l, Sorted Qlt l -> Sorted Qlt (filter p l).
Proof.
  intros p l H. apply StronglySorted_Sorted. apply sorted_strongly in H.
  induction H as [|a l H IH Ha]; cbn [filter]; [constructor|]. destruct (p a); [|exact IH].
  constructor; [exact IH|]. apply Forall_forall. intros x Hx. apply filter_In in Hx.
  rewrite Forall_forall in Ha. apply Ha, Hx.
Qed.
Lemma eqlistA_Forall2 : forall l l', eqlistA Qeq l l' -> Forall2 Qeq l l'.
Proof. intros l l' H. induction H; constructor; assumption. Qed.

Global Instance Qlt_strict : StrictOrder Qlt.
Proof. split; [intros x H; exact (Qlt_irrefl _ H) | intros x y z; apply Qlt_trans]. Qed.

(** What is evaluated for one of the entries: its own times. *)
Lemma own_times : forall ts all, Sorted Qlt ts -> (forall x, InA Qeq x ts -> InA Qeq x all) ->
    Forall2 Qeq (filter (fun t => in_times t ts) (sort_times all)) ts.
Proof.
  intros ts all Hs Hin. apply eqlistA_Forall2.
  apply (SortA_equivlistA_eqlistA Q_Setoid Qlt_strict Qlt_compat).
  - apply filter_sorted, sort_times_sorted.
  - exact Hs.
  - intros x. rewrite filter_InA.
    + rewrite sort_times_In, in_times_In. split; [tauto|]. intros H. split; [apply Hin, H | exact H].
    + intros a b E. destruct (in_times a ts) eqn:E1, (in_times b ts) eqn:E2; try reflexivity.
      * apply in_times_In in E1. rewrite E in E1. apply in_times_In in E1. congruence.
      * apply in_times_In in E2. rewrite <- E in E2. apply in_times_In in E2. congruence.
Qed.

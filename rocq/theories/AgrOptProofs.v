(** Proofs about what settled sweeps of the distributed method say about the whole network. *)
From Coq Require Import String Permutation Lqa Lia.
From Verif Require Import Base UtilModel ExprModel SysModel NlpModel NlpSpec SimModel DiscModel ResModel NetModel DalModel ExoModel.
From Verif Require Import DalSpec ExoSpec AgrSpec BaseProofs UtilProofs DalProofs DalLoopProofs DalUpdateProofs DalMoreProofs ExoProofs AgrProofs.
Local Open Scope list_scope.
Local Open Scope nat_scope.

(** ** Sums *)

Lemma sum_same : forall {A} (f g : A -> Q) l, (forall x, In x l -> (f x == g x)%Q) -> (sum_of (map f l) == sum_of (map g l))%Q.
Proof.
  intros A f g l. induction l as [|x l IH]; intros H; cbn; [reflexivity|]. rewrite (H x (or_introl eq_refl)), IH; [reflexivity|].
  intros y Hy. apply H. right. exact Hy.
Qed.
Lemma sum_plus : forall {A} (f g : A -> Q) l, (sum_of (map (fun x => f x + g x) l) == sum_of (map f l) + sum_of (map g l))%Q.
Proof. intros A f g l. induction l as [|x l IH]; cbn; [reflexivity|]. rewrite IH. ring. Qed.
Lemma sum_times : forall {A} c (f : A -> Q) l, (sum_of (map (fun x => c * f x) l) == c * sum_of (map f l))%Q.
Proof. intros A c f l. induction l as [|x l IH]; cbn; [ring|]. rewrite IH. ring. Qed.
Lemma sum_below : forall {A} (f g : A -> Q) l, (forall x, In x l -> (f x <= g x)%Q) -> (sum_of (map f l) <= sum_of (map g l))%Q.
Proof.
  intros A f g l. induction l as [|x l IH]; intros H; cbn; [lra|]. pose proof (H x (or_introl eq_refl)).
  assert (sum_of (map f l) <= sum_of (map g l))%Q by (apply IH; intros y Hy; apply H; right; exact Hy). lra.
Qed.
Lemma sum_append : forall l l', (sum_of (l ++ l') == sum_of l + sum_of l')%Q.
Proof. induction l as [|x l IH]; intros l'; cbn; [ring|]. rewrite IH. ring. Qed.
Lemma sum_order : forall l l', Permutation l l' -> (sum_of l == sum_of l')%Q.
Proof. intros l l' P. induction P; cbn; [reflexivity|rewrite IHP; reflexivity|ring|rewrite IHP1; exact IHP2]. Qed.
Lemma sum_nested : forall {A B} (f : A -> list B) (t : B -> Q) l,
  (sum_of (map (fun a => sum_of (map t (f a))) l) == sum_of (map t (flat_map f l)))%Q.
Proof.
  intros A B f t l. induction l as [|a l IH]; cbn; [reflexivity|]. rewrite map_app, sum_append, IH. reflexivity.
Qed.

Lemma integral_same : forall opts omega f g,
  (forall el k, el < do_elements opts -> k < do_degree opts -> (f el k == g el k)%Q) -> (integral opts omega f == integral opts omega g)%Q.
Proof.
  intros opts omega f g H. apply sum_same. intros el He. apply sum_same. intros k Hk. apply in_seq in He. apply in_seq in Hk.
  rewrite (H el k); [reflexivity|lia|lia].
Qed.
Lemma integral_plus : forall opts omega f g, (integral opts omega (fun el k => f el k + g el k) == integral opts omega f + integral opts omega g)%Q.
Proof.
  intros opts omega f g. unfold integral. rewrite <- sum_plus. apply sum_same. intros el _. rewrite <- sum_plus.
  apply sum_same. intros k _. ring.
Qed.
Lemma integral_times : forall opts omega c f, (integral opts omega (fun el k => c * f el k) == c * integral opts omega f)%Q.
Proof.
  intros opts omega c f. unfold integral. rewrite <- sum_times. apply sum_same. intros el _. rewrite <- sum_times.
  apply sum_same. intros k _. ring.
Qed.

(** A parabola that does not go below zero near zero does not fall there. *)
Lemma slope_not_negative : forall A B : Q, (forall t, 0 < t -> t <= 1 -> 0 <= t * A + t * t * B)%Q -> (0 <= A)%Q.
Proof.
  intros A B H. apply Qnot_lt_le. intros N. destruct (Qlt_le_dec 0 B) as [P|P].
  - set (c := (2 * (B - A))%Q). assert (Hc : (0 < c)%Q) by (unfold c; lra). set (t := (- A / c)%Q).
    assert (E : (t * c == - A)%Q) by (unfold t; field; lra).
    assert (T0 : (0 < t)%Q). { apply Qnot_le_lt. intros X. assert (t * c <= 0)%Q by nra. lra. }
    assert (T1 : (t <= 1)%Q). { apply Qnot_lt_le. intros X. assert (c < t * c)%Q by nra. unfold c in *. lra. }
    pose proof (H t T0 T1) as I. unfold c in E. assert (X : (A + t * B < 0)%Q) by nra. nra.
  - pose proof (H 1%Q ltac:(lra) ltac:(lra)). lra.
Qed.

Lemma choose_list : forall {B} (d : B) (R : nat -> B -> Prop) (l : list nat), (forall a, In a l -> exists y, R a y) ->
  exists f : nat -> B, forall a, In a l -> R a (f a).
Proof.
  intros B d R l. induction l as [|a l IH]; intros H.
  - exists (fun _ => d). intros a [].
  - destruct (IH (fun b Hb => H b (or_intror Hb))) as [f F]. destruct (H a (or_introl eq_refl)) as [y Y].
    exists (fun b => if Nat.eqb b a then y else f b). intros b Hb. destruct (Nat.eqb_spec b a) as [->|N]; [exact Y|].
    destruct Hb as [E|Hb]; [congruence|]. apply F, Hb.
Qed.

Section Optimal.
  Variable S : Type.
  Variables used next : S -> nat -> nat -> nat -> Q.
  Variable solve : addr -> S -> theta Q -> option (list Q) -> S * res node_result.
  Variable mu_of : S -> list Q.
  Variables (opts : dal_options) (net : dnet) (blocks : dict nat (list addr)).
  Variable draw : nat -> list nat.
  Variable real : addr -> node_result -> Prop.
  Variable P : Type.
  Variable feasible : addr -> P -> Prop.
  Variable cost : addr -> P -> Q.
  Variable value : addr -> P -> nat -> nat -> nat -> Q.
  Variable mix : Q -> P -> P -> P.
  Variable omega : nat -> nat -> Q.
  Variable point : node_result -> P.
  Notation methods l := (d_method S (l_state S l)).
  Notation last l := (d_last S (l_state S l)).
  Notation integral := (integral opts omega).
  Notation charge := (charge opts net P value omega).
  Notation own a i := (nth i (own_ends net a) (FarInput a 0%nat)).

  (** ** One node *)

  Lemma difference_moves : forall e x y q t, (difference e ((1 - t) * x + t * y) q == difference e x q + t * (difference e y q - difference e x q))%Q.
  Proof. intros [b v|b v] x y q t; cbn; ring. Qed.
  Lemma difference_step : forall e x y q, (difference e y q - difference e x q == difference e y x)%Q.
  Proof. intros [b v|b v] x y q; cbn; ring. Qed.
  Lemma difference_proper : forall e x x' y y', (x == x')%Q -> (y == y')%Q -> (difference e x y == difference e x' y')%Q.
  Proof. intros [b v|b v] x x' y y' H1 H2; cbn; rewrite H1, H2; reflexivity. Qed.

  (** How the cost of a node changes on the way from [x] to [z]. *)
  Definition pull (a : addr) (nu : nat -> nat -> nat -> Q) (mu : list Q) (th : theta Q) (x z : P) (i : nat) : Q :=
    integral (fun el k =>
      (nu el k i + nth i mu 0 * difference (own a i) (value a x el k i) (parameter th el (i * do_degree opts + k))) *
      difference (own a i) (value a z el k i) (value a x el k i))%Q.

  Lemma node_bound : forall a nu mu th x z, convex P feasible cost value mix -> feasible a x -> feasible a z ->
    (forall w, feasible a w -> (cost a x + charge a nu mu th x <= cost a w + charge a nu mu th w)%Q) ->
    (cost a x <= cost a z + sum_of (map (pull a nu mu th x z) (seq 0 (length (own_ends net a)))))%Q.
  Proof.
    intros a nu mu th x z Hc Fx Fz Hm.
    set (A := sum_of (map (pull a nu mu th x z) (seq 0 (length (own_ends net a))))).
    set (B := sum_of (map (fun i => integral (fun el k => (1 # 2) * (nth i mu 0 *
      (difference (own a i) (value a z el k i) (value a x el k i) * difference (own a i) (value a z el k i) (value a x el k i))))%Q)
      (seq 0 (length (own_ends net a))))).
    enough (0 <= cost a z - cost a x + A)%Q by lra.
    apply slope_not_negative with B. intros t T0 T1.
    destruct (Hc a t x z T0 T1 Fx Fz) as [Fm [Cm Vm]]. pose proof (Hm _ Fm) as I.
    assert (E : (charge a nu mu th (mix t x z) == charge a nu mu th x + (t * A + t * t * B))%Q).
    { unfold A, B, AgrSpec.charge. rewrite <- !sum_times, <- !sum_plus. apply sum_same. intros i _. unfold pull.
      rewrite <- !integral_times, <- !integral_plus. apply integral_same. intros el k _ _. cbv zeta.
      rewrite (difference_proper _ _ _ _ _ (Vm el k i) (Qeq_refl _)), difference_moves, difference_step. ring. }
    rewrite E in I. nra.
  Qed.

  (** ** The network *)

  Hypothesis Hblocks : all_blocks opts blocks draw.
  Hypothesis Hcovers : covers net blocks.
  Hypothesis Hknown : forall a, In a (dn_nodes net) -> Forall (far_known net) (far_ends net a).
  Hypothesis Hsolve : uses_next S used next mu_of net real solve.
  Hypothesis Hmin : minimises S next mu_of opts net P feasible cost value omega point solve.
  Hypothesis Hconvex : convex P feasible cost value mix.
  Variable pairs : list ((addr * nat) * (addr * nat)).
  Hypothesis Hwired : wired net pairs.

  Lemma seen_value : forall seen lst new el k f q, (forall b, result_of seen b = result_of lst b \/ result_of seen b = result_of new b) ->
    far_value net seen el k f q -> far_value net lst el k f q \/ far_value net new el k f q.
  Proof.
    intros seen lst new el k [b v|b v] q H [i [Hi ->]]; destruct (H b) as [E|E]; [left|right|left|right];
      (exists i; split; [exact Hi|rewrite E; reflexivity]).
  Qed.

  Lemma pairs_nodes : forall a i b j, In ((a, i), (b, j)) pairs -> In a (dn_nodes net) /\ In b (dn_nodes net).
  Proof.
    intros a i b j H. destruct Hwired as [Pm _].
    assert (X : forall c n, In (c, n) (map fst pairs ++ map snd pairs) -> In c (dn_nodes net)).
    { intros c n Hc. apply (Permutation_in _ (Permutation_sym Pm)) in Hc. apply in_flat_map in Hc.
      destruct Hc as [d [D1 D2]]. apply in_map_iff in D2. destruct D2 as [m [D2 _]]. assert (d = c) by congruence. subst. exact D1. }
    split; [apply (X a i), in_or_app; left; apply (in_map fst _ _ H)|apply (X b j), in_or_app; right; apply (in_map snd _ _ H)].
  Qed.

  Lemma settled_bound : forall l l' o, agreed S next mu_of opts net (methods l) ->
    full_results opts (last l) -> full_results opts (l_results S l') ->
    sweep S solve opts net blocks draw l = (l', Ok o) -> unmoved opts net (last l) (l_results S l') ->
    exists x, results_are net P point (l_results S l') x /\ (forall a, In a (dn_nodes net) -> feasible a (x a)) /\
      forall z, (forall a, In a (dn_nodes net) -> feasible a (z a)) -> joined opts net P value z ->
        (total_cost net P cost x + gap_cost S next mu_of opts P value omega pairs (methods l) x <= total_cost net P cost z)%Q.
  Proof.
    intros l l' o [A1 A2] FL FN H Hu.
    destruct (sweep_all S solve (fun _ m _ _ _ => (m, Ok [])) (fun _ m _ _ _ => (m, Ok (0%Q, NInf, []))) opts net blocks draw
                Hblocks Hcovers _ _ _ H) as [_ [_ C]].
    set (x := fun a => point (match result_of (l_results S l') a with Some r => r | None => mkNodeResult false 0%Q [] (link_data 0%Q) end)).
    assert (X : forall a, In a (dn_nodes net) -> exists th, (exists r, result_of (l_results S l') a = Some r /\ x a = point r) /\
      feasible a (x a) /\
      (forall el k i e v, el < do_elements opts -> k < do_degree opts -> nth_error (own_ends net a) i = Some e ->
         far_value net (l_results S l') el k e v -> (v == value a (x a) el k i)%Q) /\
      (forall w, feasible a w -> (cost a (x a) + charge a (next (methods l a)) (mu_of (methods l a)) th (x a) <=
                                  cost a w + charge a (next (methods l a)) (mu_of (methods l a)) th w)%Q) /\
      exists seen, given opts net seen a th /\ forall b, result_of seen b = result_of (last l) b \/ result_of seen b = result_of (l_results S l') b).
    { intros a Ha. destruct (C a Ha) as [th [r [seen [C1 [C2 [C3 C4]]]]]]. exists th.
      destruct (Hsolve _ _ _ _ _ _ Ha C2) as [S1 _]. destruct (Hmin _ _ _ _ _ _ Ha C2) as [M1 [M2 M3]]. pose proof (C3 S1) as Er.
      assert (Ex : x a = point r) by (unfold x; rewrite Er; reflexivity). rewrite Ex.
      split; [exists r; split; [exact Er|reflexivity]|]. split; [exact M1|]. split; [|split; [exact M3|exists seen; split; assumption]].
      intros el k i e v He Hk Hi Hv. apply (M2 (l_results S l') el k i e v Er He Hk Hi Hv). }
    destruct (choose_list [] _ _ X) as [th T]. clear X.
    (* the parameters of a node are the values of its neighbours *)
    assert (Par : forall a i b j f el k, In a (dn_nodes net) -> In b (dn_nodes net) -> nth_error (far_ends net a) i = Some f ->
      nth_error (own_ends net b) j = Some f -> el < do_elements opts -> k < do_degree opts ->
      (parameter (th a) el (i * do_degree opts + k) == value b (x b) el k j)%Q).
    { intros a i b j f el k Ha Hb Hf Hj He Hk. destruct (T a Ha) as [_ [_ [_ [_ [seen [[_ G] Hseen]]]]]].
      destruct (T b Hb) as [_ [_ [Vb _]]].
      assert (FS : full_results opts seen). { intros c r e Hc Hee. destruct (Hseen c) as [E|E]; rewrite E in Hc; [apply (FL c r e Hc Hee)|apply (FN c r e Hc Hee)]. }
      pose proof (Hknown a Ha) as K.
      assert (Kf : far_known net f) by (rewrite Forall_forall in K; apply K; eapply nth_error_In, Hf).
      unfold parameter. rewrite (G el He), received_ends by exact K.
      assert (Li : i < length (far_ends net a)) by (apply nth_error_Some; congruence).
      rewrite (nth_flat_map_uniform _ (do_degree opts) _ i k f 0%Q); [|intros; apply far_list_length; assumption|exact Li|exact Hk].
      rewrite (nth_error_nth _ _ f Hf). pose proof (far_list_value opts net seen el f k FS He Hk Kf) as V.
      destruct (seen_value _ _ _ _ _ _ _ Hseen V) as [W|W]; [|apply (Vb el k j f _ He Hk Hj W)].
      destruct (known_value net (l_results S l') el k f Kf) as [v' V'].
      rewrite (Hu b f el k _ v' Hb (nth_error_In _ _ Hj) He Hk W V'). apply (Vb el k j f _ He Hk Hj V'). }
    exists x. split; [intros a Ha; apply (T a Ha)|]. split; [intros a Ha; apply (T a Ha)|].
    intros z Fz Jz.
    set (t := fun ai : addr * nat => pull (fst ai) (next (methods l (fst ai))) (mu_of (methods l (fst ai))) (th (fst ai)) (x (fst ai)) (z (fst ai)) (snd ai)).
    assert (I1 : (total_cost net P cost x <= total_cost net P cost z +
      sum_of (map (fun a => sum_of (map t (map (pair a) (seq 0 (length (own_ends net a)))))) (dn_nodes net)))%Q).
    { unfold total_cost. rewrite <- sum_plus. apply sum_below. intros a Ha. rewrite map_map. unfold t. cbn [fst snd].
      destruct (T a Ha) as [_ [Fx [_ [M _]]]]. apply (node_bound a _ _ _ _ _ Hconvex Fx (Fz a Ha) M). }
    rewrite sum_nested in I1. destruct Hwired as [Pm Wm].
    rewrite (sum_order _ _ (Permutation_map t Pm)), map_app, sum_append, !map_map, <- sum_plus in I1.
    assert (E : (sum_of (map (fun e => t (fst e) + t (snd e)) pairs) == - gap_cost S next mu_of opts P value omega pairs (methods l) x)%Q).
    { unfold gap_cost. setoid_replace (- sum_of (map (fun e => match e with ((a, i), (b, j)) => integral (fun el k =>
        let g := value a (x a) el k i - value b (x b) el k j in
        (next (methods l a) el k i + nth i (mu_of (methods l a)) 0 * g) * g)%Q end) pairs))%Q with
        ((-1) * sum_of (map (fun e => match e with ((a, i), (b, j)) => integral (fun el k =>
        let g := value a (x a) el k i - value b (x b) el k j in
        (next (methods l a) el k i + nth i (mu_of (methods l a)) 0 * g) * g)%Q end) pairs))%Q by ring.
      rewrite <- sum_times. apply sum_same. intros [[a i] [b j]] He. cbn [fst snd].
      pose proof (Wm a i b j He) as M. destruct (pairs_nodes a i b j He) as [Ha Hb].
      destruct (A2 a i b j Ha Hb M) as [W N]. pose proof (Jz a i b j Ha Hb M) as Zz. destruct M as [v [w [M1 [M2 [M3 M4]]]]].
      unfold t, pull. cbn [fst snd]. rewrite (nth_error_nth _ _ (FarInput a 0) M1), (nth_error_nth _ _ (FarInput b 0) M3).
      rewrite <- integral_plus, <- integral_times. apply integral_same. intros el k Hel Hk. cbv zeta. cbn [difference].
      rewrite (Par a i b j _ el k Ha Hb M2 M3 Hel Hk), (Par b j a i _ el k Hb Ha M4 M1 Hel Hk), <- W, <- (N el k Hel Hk), (Zz el k Hel Hk). ring. }
    rewrite E in I1. lra.
  Qed.

  Lemma settled_optimal : forall l l' o x, agreed S next mu_of opts net (methods l) ->
    full_results opts (last l) -> full_results opts (l_results S l') ->
    sweep S solve opts net blocks draw l = (l', Ok o) -> unmoved opts net (last l) (l_results S l') ->
    results_are net P point (l_results S l') x -> joined opts net P value x ->
    (forall a, In a (dn_nodes net) -> feasible a (x a)) /\
    forall z, (forall a, In a (dn_nodes net) -> feasible a (z a)) -> joined opts net P value z ->
      (total_cost net P cost x <= total_cost net P cost z)%Q.
  Proof.
    intros l l' o x A FL FN H Hu Rx Jx. destruct (settled_bound l l' o A FL FN H Hu) as [y [Ry [Fy B]]].
    assert (E : forall a, In a (dn_nodes net) -> y a = x a).
    { intros a Ha. destruct (Rx a Ha) as [r [R1 R2]]. destruct (Ry a Ha) as [r' [R3 R4]]. congruence. }
    split; [intros a Ha; rewrite <- (E a Ha); apply Fy, Ha|]. intros z Fz Jz. pose proof (B z Fz Jz) as I.
    assert (Ec : (total_cost net P cost y == total_cost net P cost x)%Q).
    { apply sum_same. intros a Ha. rewrite (E a Ha). reflexivity. }
    assert (Eg : (gap_cost S next mu_of opts P value omega pairs (methods l) y == 0)%Q).
    { unfold gap_cost. setoid_replace 0%Q with (0 * sum_of (map (fun e : (addr * nat) * (addr * nat) => 0) pairs))%Q by ring.
      rewrite <- sum_times. apply sum_same. intros [[a i] [b j]] He. destruct (pairs_nodes a i b j He) as [Ha Hb].
      apply (Qeq_trans _ (0 * integral (fun _ _ => 0))%Q); [|ring]. rewrite <- integral_times. apply integral_same.
      intros el k Hel Hk. cbv zeta. rewrite (E a Ha), (E b Hb).
      rewrite (Jx a i b j Ha Hb (proj2 Hwired a i b j He) el k Hel Hk). ring. }
    rewrite Ec, Eg in I. lra.
  Qed.
End Optimal.

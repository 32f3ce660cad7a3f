(** Proofs about intermediary nodes. *)
From Coq Require Import String Qabs Lqa Lia.
From Verif Require Import Base UtilModel ExprModel SimModel DiscModel AugModel BaseProofs UtilProofs.
From Verif Require Import ImnModel ImnSpec.
Local Open Scope list_scope.

(** ** The minimiser *)

Lemma square_nonneg : forall z : Q, (0 <= z * z)%Q.
Proof. intros z. nra. Qed.

Lemma u_c_minimises : forall mu y u n1 n2, (0 < mu)%Q ->
  unique_minimiser (node_lagrangian mu y u n1 n2) (u_c mu y u n1 n2).
Proof.
  intros mu y u n1 n2 Hmu w.
  assert (Hc : (2 * mu * u_c mu y u n1 n2 == n2 - n1 + mu * (y + u))%Q).
  { unfold u_c. field. lra. }
  set (c := u_c mu y u n1 n2) in *.
  assert (Hd : (node_lagrangian mu y u n1 n2 w - node_lagrangian mu y u n1 n2 c == mu * ((w - c) * (w - c)))%Q).
  { assert (E : (node_lagrangian mu y u n1 n2 w - node_lagrangian mu y u n1 n2 c ==
                 (w - c) * (mu * (w + c) - (n2 - n1 + mu * (y + u))))%Q)
      by (unfold node_lagrangian; field).
    rewrite E, <- Hc. ring. }
  assert (Hs : (0 <= (w - c) * (w - c))%Q) by apply square_nonneg.
  remember ((w - c) * (w - c))%Q as z eqn:Hzz.
  assert (Hp : (0 <= mu * z)%Q) by (apply Qmult_le_0_compat; lra).
  split; [lra|]. intros Hle.
  assert (Hm : (mu * z == 0)%Q) by lra.
  assert (Hz : (z == 0)%Q) by (destruct (Qmult_integral _ _ Hm); [lra | assumption]).
  rewrite Hzz in Hz.
  destruct (Qmult_integral _ _ Hz) as [H|H]; lra.
Qed.

Lemma u_c_average : forall mu y u n1 n2, (n1 == n2)%Q -> (u_c mu y u n1 n2 == (y + u) / 2)%Q.
Proof.
  intros mu y u n1 n2 H. unfold u_c. rewrite H. unfold Qdiv.
  setoid_replace (n2 - n2)%Q with 0%Q by ring. rewrite Qmult_0_l. ring.
Qed.

Lemma nu_next_equal : forall mu y u n1 n2, (0 < mu)%Q ->
  let c := u_c mu y u n1 n2 in (n1 + mu * (c - y) == n2 + mu * (u - c))%Q.
Proof.
  intros mu y u n1 n2 Hmu c.
  assert (Hc : (2 * mu * c == n2 - n1 + mu * (y + u))%Q) by (unfold c, u_c; field; lra).
  lra.
Qed.

(** ** Values by element and point *)

Definition grid {A : Type} (degree elements : nat) (v : nat -> nat -> A) : list A :=
  flat_map (fun el => map (v el) (seq 0 degree)) (seq 0 elements).

Lemma flat_map_map {A B C : Type} : forall (f : A -> list B) (g : B -> C) l,
  map g (flat_map f l) = flat_map (fun a => map g (f a)) l.
Proof. intros f g l. induction l; simpl; [reflexivity|]. rewrite map_app, IHl. reflexivity. Qed.

Lemma map_grid {A B : Type} : forall (f : A -> B) d e v,
  map f (grid d e v) = grid d e (fun el j => f (v el j)).
Proof.
  intros. unfold grid. rewrite flat_map_map. apply flat_map_ext. intros a. apply map_map.
Qed.
Lemma combine_app_same {A B : Type} : forall (a1 a2 : list A) (b1 b2 : list B), length a1 = length b1 ->
  combine (a1 ++ a2) (b1 ++ b2) = combine a1 b1 ++ combine a2 b2.
Proof.
  induction a1; intros a2 [|b b1] b2 H; simpl in *; try discriminate; [reflexivity|].
  rewrite IHa1 by lia. reflexivity.
Qed.
Lemma combine_maps {A B C : Type} : forall (f : A -> B) (g : A -> C) l,
  combine (map f l) (map g l) = map (fun a => (f a, g a)) l.
Proof. intros f g l. induction l; simpl; [reflexivity|]. rewrite IHl. reflexivity. Qed.
Lemma combine_grid {A B : Type} : forall d e (v : nat -> nat -> A) (w : nat -> nat -> B),
  combine (grid d e v) (grid d e w) = grid d e (fun el j => (v el j, w el j)).
Proof.
  intros. unfold grid. induction (seq 0 e); simpl; [reflexivity|].
  rewrite combine_app_same by (rewrite !map_length; reflexivity).
  rewrite combine_maps, IHl. reflexivity.
Qed.
Lemma grid_length {A : Type} : forall d e (v : nat -> nat -> A), length (grid d e v) = d * e.
Proof.
  intros. unfold grid. rewrite <- (seq_length e 0) at 2.
  induction (seq 0 e); simpl; [lia|].
  rewrite app_length, map_length, seq_length, IHl. lia.
Qed.
Lemma by_points_grid : forall d e v, by_points d e v = grid d e v.
Proof. reflexivity. Qed.
Lemma grid_concat {A : Type} : forall d e (v : nat -> nat -> A),
  grid d e v = concat (map (fun el => map (v el) (seq 0 d)) (seq 0 e)).
Proof. intros. unfold grid. apply flat_map_concat_map. Qed.
Lemma in_grid {A : Type} : forall d e (v : nat -> nat -> A) a,
  In a (grid d e v) <-> exists el j, el < e /\ j < d /\ a = v el j.
Proof.
  intros. unfold grid. rewrite in_flat_map. split.
  - intros [el [H1 H2]]. apply in_seq in H1. apply in_map_iff in H2. destruct H2 as [j [<- H2]].
    apply in_seq in H2. exists el, j. repeat split; lia.
  - intros [el [j [H1 [H2 ->]]]]. exists el. split; [apply in_seq; lia|].
    apply in_map. apply in_seq. lia.
Qed.

(** ** Blocks *)

Lemma blocks_of_concat : forall n bs fuel, 1 <= n -> Forall (fun b => length b = n) bs ->
  length (concat bs) <= fuel -> blocks_of fuel n (concat bs) = bs.
Proof.
  intros n bs. induction bs as [|b bs IH]; intros fuel Hn Hb Hf.
  - destruct fuel; reflexivity.
  - inversion_clear Hb. simpl in *. rewrite app_length in Hf.
    destruct fuel as [|fuel]; [lia|]. simpl.
    destruct (b ++ concat bs) as [|x l] eqn:E.
    + apply app_eq_nil in E. destruct E as [-> _]. simpl in H. lia.
    + rewrite <- E. replace n with (length b + 0) by lia.
      rewrite firstn_app_2, firstn_O, app_nil_r.
      replace (length b + 0) with n by lia.
      rewrite skipn_app, skipn_all2 by lia. replace (n - length b) with 0 by lia. simpl.
      rewrite IH; [reflexivity|exact Hn|assumption|lia].
Qed.
Lemma vertsplit_concat : forall n bs, 1 <= n -> Forall (fun b => length b = n) bs ->
  vertsplit (concat bs) n = Ok bs.
Proof.
  intros n bs Hn Hb. unfold vertsplit. destruct (Nat.eqb_spec n 0); [lia|].
  rewrite blocks_of_concat; auto.
Qed.
Lemma vertsplit_grid : forall d e v, 1 <= d ->
  vertsplit (grid d e v) d = Ok (map (fun el => map (v el) (seq 0 d)) (seq 0 e)).
Proof.
  intros d e v Hd. rewrite grid_concat. apply vertsplit_concat; [exact Hd|].
  apply Forall_forall. intros b H. apply in_map_iff in H. destruct H as [el [<- _]].
  rewrite map_length, seq_length. reflexivity.
Qed.

Lemma res_map_all {A B : Type} : forall (f : A -> res B) g l, (forall a, In a l -> f a = Ok (g a)) ->
  res_map f l = Ok (map g l).
Proof.
  intros f g l. induction l as [|a l IH]; intros H; simpl; [reflexivity|].
  rewrite H by (left; reflexivity). rewrite IH; [reflexivity|]. intros b Hb. apply H. right. exact Hb.
Qed.

(** A dictionary with values [vs] at every element. *)
Definition has (d e : nat) (vs : list (nat -> nat -> Q)) (th : theta Q) : Prop :=
  forall el, el < e -> dget Nat.eqb el th = Some (concat (map (fun v => map (v el) (seq 0 d)) vs)).

Lemma split_vector_has : forall d e vs th i v, 1 <= d -> 1 <= e -> has d e vs th -> nth_error vs i = Some v ->
  split_vector th d e i = Ok (grid d e v).
Proof.
  intros d e vs th i v Hd He H Hi. unfold split_vector.
  destruct (Nat.eqb_spec e 0); [lia|].
  rewrite (res_map_all _ (fun el => map (v el) (seq 0 d))).
  - rewrite <- grid_concat. reflexivity.
  - intros el Hel. apply in_seq in Hel. unfold block_of. rewrite H by lia.
    rewrite vertsplit_concat; [|exact Hd|].
    + unfold at_index. rewrite nth_error_map, Hi. reflexivity.
    + apply Forall_forall. intros b Hb. apply in_map_iff in Hb. destruct Hb as [w [<- _]].
      rewrite map_length, seq_length. reflexivity.
Qed.
Lemma split_theta_has : forall d e f0 f1 f2 f3 rest th, 1 <= d -> 1 <= e ->
  has d e (f0 :: f1 :: f2 :: f3 :: rest) th ->
  split_theta th d e = Ok (grid d e (fun el j => ((f0 el j, f1 el j), (f2 el j, f3 el j)))).
Proof.
  intros d e f0 f1 f2 f3 rest th Hd He H. unfold split_theta.
  rewrite (split_vector_has d e _ th 0 f0 Hd He H eq_refl).
  rewrite (split_vector_has d e _ th 1 f1 Hd He H eq_refl).
  rewrite (split_vector_has d e _ th 2 f2 Hd He H eq_refl).
  rewrite (split_vector_has d e _ th 3 f3 Hd He H eq_refl).
  unfold columns. simpl. rewrite !grid_length, Nat.eqb_refl. simpl.
  rewrite !combine_grid. reflexivity.
Qed.

Lemma holds_joined : forall d e fs gs th nu, 1 <= e -> holds d e fs th -> holds d e gs nu ->
  exists r, join_thetas [Some th; Some nu] = Ok r /\ has d e (fs ++ gs) r.
Proof.
  intros d e fs gs th nu He [L1 H1] [L2 H2].
  destruct (join_thetas [Some th; Some nu]) as [r|x] eqn:E.
  - exists r. split; [reflexivity|]. intros el Hel.
    rewrite (join_thetas_two _ _ _ _ _ _ E (H1 el Hel) (H2 el Hel)).
    rewrite map_app, concat_app, <- !flat_map_concat_map. reflexivity.
  - exfalso. apply join_thetas_error in E. destruct E as [_ [t [t' [I1 [I2 [_ [_ N]]]]]]].
    apply N. simpl in I1, I2.
    destruct I1 as [I1|[I1|[]]]; destruct I2 as [I2|[I2|[]]]; congruence.
Qed.

(** ** Solving *)

Definition weight_of (s : imn) (p : option (list Q)) (mu : Q) : Prop :=
  nth_error (match p with Some v => v | None => [] end ++ st_mu (im_state s)) 0 = Some mu.

Lemma with_mu_app : forall p mu, with_mu p mu = match p with Some v => v | None => [] end ++ mu.
Proof. intros [v|] mu; reflexivity. Qed.

Lemma imn_solve_full : forall opts th p s mu fs gs f0 f1 f2 f3 rest,
  1 <= al_degree opts -> 1 <= al_elements opts ->
  holds (al_degree opts) (al_elements opts) fs th ->
  holds (al_degree opts) (al_elements opts) gs (st_nu (im_state s)) ->
  fs ++ gs = f0 :: f1 :: f2 :: f3 :: rest ->
  nth_error (match p with Some v => v | None => [] end ++ st_mu (im_state s)) 0 = Some mu ->
  ~ (mu == 0)%Q ->
  exists r, imn_solve opts (Some th) p s = (s, Ok r) /\
    ir_x r = grid (al_degree opts) (al_elements opts) (fun el j => u_c mu (f0 el j) (f1 el j) (f2 el j) (f3 el j)) /\
    ir_p r = match p with Some v => v | None => [] end ++ st_mu (im_state s) /\
    has (al_degree opts) (al_elements opts) (f0 :: f1 :: f2 :: f3 :: rest) (ir_theta r).
Proof.
  intros opts th p s mu fs gs f0 f1 f2 f3 rest Hd He H1 H2 Hfg Hmu Hnz.
  destruct (holds_joined _ _ _ _ _ _ He H1 H2) as [r [Hj Hr]].
  rewrite Hfg in Hr. pose proof (split_theta_has _ _ _ _ _ _ _ _ Hd He Hr) as Hs.
  unfold imn_solve, join_nu_to_theta, cbind, cres. rewrite Hj. rewrite Hs.
  rewrite with_mu_app. unfold at_index. rewrite Hmu.
  destruct (Qeq_bool mu 0) eqn:E; [apply Qeq_bool_iff in E; contradiction|].
  eexists. split; [reflexivity|]. simpl. rewrite map_grid. split; [reflexivity|]. split; [reflexivity|exact Hr].
Qed.

Lemma imn_solve_run : forall opts th p s mu fs gs f0 f1 f2 f3 rest,
  1 <= al_degree opts -> 1 <= al_elements opts ->
  holds (al_degree opts) (al_elements opts) fs th ->
  holds (al_degree opts) (al_elements opts) gs (st_nu (im_state s)) ->
  fs ++ gs = f0 :: f1 :: f2 :: f3 :: rest ->
  nth_error (match p with Some v => v | None => [] end ++ st_mu (im_state s)) 0 = Some mu ->
  ~ (mu == 0)%Q ->
  exists r, imn_solve opts (Some th) p s = (s, Ok r) /\
    ir_x r = grid (al_degree opts) (al_elements opts) (fun el j => u_c mu (f0 el j) (f1 el j) (f2 el j) (f3 el j)).
Proof.
  intros opts th p s mu fs gs f0 f1 f2 f3 rest Hd He H1 H2 Hfg Hmu Hnz.
  destruct (imn_solve_full opts th p s mu fs gs f0 f1 f2 f3 rest Hd He H1 H2 Hfg Hmu Hnz) as [r [Hr [Hx _]]].
  exists r. split; assumption.
Qed.

Lemma imn_solves : forall opts th p s mu y u n1 n2,
  1 <= al_degree opts -> 1 <= al_elements opts ->
  holds (al_degree opts) (al_elements opts) [y; u] th ->
  holds (al_degree opts) (al_elements opts) [n1; n2] (st_nu (im_state s)) ->
  nth_error (match p with Some v => v | None => [] end ++ st_mu (im_state s)) 0 = Some mu ->
  (0 < mu)%Q ->
  exists r v, imn_solve opts (Some th) p s = (s, Ok r) /\
    ir_x r = by_points (al_degree opts) (al_elements opts) v /\
    ir_p r = match p with Some v => v | None => [] end ++ st_mu (im_state s) /\
    (forall el, el < al_elements opts ->
       dget Nat.eqb el (ir_theta r) = Some (flat_map (fun f => map (f el) (seq 0 (al_degree opts))) [y; u; n1; n2])) /\
    imn_data opts r = Ok (map (fun el => map (v el) (seq 0 (al_degree opts))) (seq 0 (al_elements opts))) /\
    forall el j, el < al_elements opts -> j < al_degree opts ->
      unique_minimiser (node_lagrangian mu (y el j) (u el j) (n1 el j) (n2 el j)) (v el j) /\
      ((n1 el j == n2 el j)%Q -> (v el j == (y el j + u el j) / 2)%Q).
Proof.
  intros opts th p s mu y u n1 n2 Hd He H1 H2 Hmu Hpos.
  destruct (imn_solve_full opts th p s mu [y; u] [n1; n2] y u n1 n2 [] Hd He H1 H2 eq_refl Hmu) as [r [Hr [Hx [Hp Ht]]]].
  { intros E. rewrite E in Hpos. lra. }
  exists r, (fun el j => u_c mu (y el j) (u el j) (n1 el j) (n2 el j)).
  split; [exact Hr|]. split; [exact Hx|]. split; [exact Hp|]. split; [intros el Hel; rewrite (Ht el Hel), flat_map_concat_map; reflexivity|]. split.
  - unfold imn_data. rewrite Hx. apply vertsplit_grid. exact Hd.
  - intros el j _ _. split; [apply u_c_minimises; exact Hpos | apply u_c_average].
Qed.

(** ** Updating *)

Lemma q_max_cases : forall a b, (a <= q_max a b)%Q /\ (b <= q_max a b)%Q /\ (q_max a b = a \/ q_max a b = b).
Proof.
  intros a b. unfold q_max. destruct (Qle_bool a b) eqn:E.
  - apply Qle_bool_iff in E. repeat split; [exact E|lra|right; reflexivity].
  - assert (~ (a <= b)%Q) by (intros H; apply Qle_bool_iff in H; congruence).
    repeat split; [lra|lra|left; reflexivity].
Qed.

Lemma row_errors_two : forall (cs : list (Q * Q)) c,
  exists e1 e2, row_errors (map (fun o => [fst o; snd o]) (c :: cs)) = [e1; e2] /\
    (forall o, In o (c :: cs) -> (Qabs (fst o) <= e1)%Q /\ (Qabs (snd o) <= e2)%Q) /\
    (exists o, In o (c :: cs) /\ e1 = Qabs (fst o)) /\ (exists o, In o (c :: cs) /\ e2 = Qabs (snd o)).
Proof.
  intros cs c. unfold row_errors. simpl map.
  assert (G : forall cs a1 a2 (base : list (Q * Q)),
    (forall o, In o base -> (Qabs (fst o) <= a1)%Q /\ (Qabs (snd o) <= a2)%Q) ->
    (exists o, In o base /\ a1 = Qabs (fst o)) -> (exists o, In o base /\ a2 = Qabs (snd o)) ->
    exists e1 e2,
      fold_left (fun acc col => map (fun ab => q_max (fst ab) (Qabs (snd ab))) (combine acc col))
                (map (fun o : Q * Q => [fst o; snd o]) cs) [a1; a2] = [e1; e2] /\
      (forall o, In o (base ++ cs) -> (Qabs (fst o) <= e1)%Q /\ (Qabs (snd o) <= e2)%Q) /\
      (exists o, In o (base ++ cs) /\ e1 = Qabs (fst o)) /\ (exists o, In o (base ++ cs) /\ e2 = Qabs (snd o))).
  { clear. induction cs as [|d cs IH]; intros a1 a2 base H1 H2 H3; simpl.
    - exists a1, a2. rewrite app_nil_r. repeat split; try assumption; apply H1; assumption.
    - destruct (IH (q_max a1 (Qabs (fst d))) (q_max a2 (Qabs (snd d))) (base ++ [d])) as [e1 [e2 [E H]]].
      + intros o Ho. apply in_app_or in Ho.
        destruct (q_max_cases a1 (Qabs (fst d))) as [M1 [M2 _]].
        destruct (q_max_cases a2 (Qabs (snd d))) as [M3 [M4 _]].
        destruct Ho as [Ho|[<-|[]]].
        * destruct (H1 o Ho). split; lra.
        * split; assumption.
      + destruct (q_max_cases a1 (Qabs (fst d))) as [_ [_ [M|M]]]; rewrite M.
        * destruct H2 as [o [Ho E]]. exists o. split; [apply in_or_app; left|]; assumption.
        * exists d. split; [apply in_or_app; right; left|]; reflexivity.
      + destruct (q_max_cases a2 (Qabs (snd d))) as [_ [_ [M|M]]]; rewrite M.
        * destruct H3 as [o [Ho E]]. exists o. split; [apply in_or_app; left|]; assumption.
        * exists d. split; [apply in_or_app; right; left|]; reflexivity.
      + rewrite <- app_assoc in H. simpl in H. exists e1, e2. split; assumption. }
  apply (G cs (Qabs (fst c)) (Qabs (snd c)) [c]).
  - intros o [<-|[]]. split; lra.
  - exists c. split; [left|]; reflexivity.
  - exists c. split; [left|]; reflexivity.
Qed.

Lemma dget_pairs {B : Type} : forall (g : nat -> B) l i, In i l ->
  dget Nat.eqb i (map (fun k => (k, g k)) l) = Some (g i).
Proof.
  intros g l i. induction l as [|k l IH]; intros H; [destruct H|]. simpl.
  destruct (Nat.eqb_spec i k) as [->|N]; [reflexivity|].
  apply IH. destruct H; [congruence|assumption].
Qed.
Lemma dget_seq {B : Type} : forall (g : nat -> B) n i, i < n ->
  dget Nat.eqb i (combine (seq 0 n) (map g (seq 0 n))) = Some (g i).
Proof.
  intros g n i Hi. rewrite <- (map_id (seq 0 n)) at 1. rewrite combine_maps.
  apply dget_pairs, in_seq. lia.
Qed.

Lemma update_mu_keeps : forall opts e l st st' r, update_mu opts e l st = (st', r) ->
  st_nu st' = st_nu st /\ st_last st' = st_last st.
Proof.
  intros opts e l st st' r. unfold update_mu.
  destruct (al_skip_mu opts); [intros H; injection H as <- _; split; reflexivity|].
  destruct (String.eqb (al_rule opts) "constant"); [intros H; injection H as <- _; split; reflexivity|].
  destruct (String.eqb (al_rule opts) "primal").
  { destruct l; intros H; injection H as <- _; split; reflexivity. }
  destruct (String.eqb (al_rule opts) "primal-dual"); [intros H; injection H as <- _; split; reflexivity|].
  destruct (String.eqb (al_rule opts) "bounded-increase"); intros H; injection H as <- _; split; reflexivity.
Qed.

Lemma imn_updates : forall opts th p s mu y u n1 n2 v raw,
  1 <= al_degree opts -> 1 <= al_elements opts ->
  al_skip_compute opts = false -> al_skip_nu opts = false -> al_improve opts = false ->
  In (al_rule opts) ["constant"; "primal"; "primal-dual"; "bounded-increase"]%string ->
  holds (al_degree opts) (al_elements opts) [y; u] th ->
  holds (al_degree opts) (al_elements opts) [n1; n2] (st_nu (im_state s)) ->
  nth_error (match p with Some v => v | None => [] end ++ st_mu (im_state s)) 0 = Some mu ->
  raw = by_points (al_degree opts) (al_elements opts) v ->
  exists s' e1 e2 d, imn_update opts (Some th) p raw s = (s', Ok [e1; e2]) /\
    largest (al_degree opts) (al_elements opts) (fun el j => v el j - y el j)%Q e1 /\
    largest (al_degree opts) (al_elements opts) (fun el j => u el j - v el j)%Q e2 /\
    st_last (im_state s') = Some [e1; e2] /\
    im_tilde s' = Some d /\
    forall el, el < al_elements opts ->
      dget Nat.eqb el d =
      Some (map (fun j => n1 el j + mu * (v el j - y el j))%Q (seq 0 (al_degree opts)),
            map (fun j => n2 el j + mu * (u el j - v el j))%Q (seq 0 (al_degree opts))).
Proof.
  intros opts th p s mu y u n1 n2 v raw Hd He Hsk Hsn Him Hrule H1 H2 Hmu ->.
  destruct (holds_joined _ _ _ _ _ _ He H1 H2) as [r [Hj Hr]].
  pose proof (split_theta_has _ _ _ _ _ _ _ _ Hd He Hr) as Hs.
  rewrite by_points_grid.
  set (D := al_degree opts) in *. set (E := al_elements opts) in *.
  set (O := fun el j => nu_next mu (y el j) (u el j) (n1 el j) (n2 el j) (v el j) (v el j)).
  assert (Hout : map (fun cx : Q * Q * (Q * Q) * Q => let '(c, x) := cx in
                       nu_next mu (fst (fst c)) (snd (fst c)) (fst (snd c)) (snd (snd c)) x x)
                     (combine (grid D E (fun el j => ((y el j, u el j), (n1 el j, n2 el j)))) (grid D E v))
                 = grid D E O).
  { rewrite combine_grid, map_grid. reflexivity. }
  destruct (grid D E O) as [|c0 cs] eqn:Eg.
  { exfalso. pose proof (grid_length D E O) as Hl. rewrite Eg in Hl. simpl in Hl. nia. }
  destruct (row_errors_two (map snd cs) (snd c0)) as [e1 [e2 [Herr [Hub [Ha1 Ha2]]]]].
  assert (Herr' : row_errors (map (fun o : Q * Q * (Q * Q) => [fst (snd o); snd (snd o)]) (grid D E O)) = [e1; e2]).
  { rewrite Eg, <- Herr. f_equal. change (snd c0 :: map snd cs) with (map snd (c0 :: cs)).
    rewrite map_map. reflexivity. }
  assert (Hin : forall o, In o (snd c0 :: map snd cs) <->
                          exists el j, el < E /\ j < D /\ o = (v el j - y el j, u el j - v el j)%Q).
  { intros o. change (snd c0 :: map snd cs) with (map snd (c0 :: cs)). rewrite <- Eg, map_grid, in_grid.
    split; intros [el [j [A [B ->]]]]; exists el, j; repeat split; assumption. }
  set (new := combine (seq 0 E)
                (combine (map (fun el => map (fun j => n1 el j + mu * (v el j - y el j))%Q (seq 0 D)) (seq 0 E))
                         (map (fun el => map (fun j => n2 el j + mu * (u el j - v el j))%Q (seq 0 D)) (seq 0 E)))).
  assert (Hcomp : forall s1, imn_compute opts (with_mu p (st_mu (im_state s))) r (grid D E v) s1 =
                             (set_im_tilde (Some new) s1, Ok [e1; e2])).
  { intros s1. unfold imn_compute. rewrite Hsk. fold D E. unfold cbind, cres. rewrite Hs.
    rewrite with_mu_app. unfold at_index. rewrite Hmu. rewrite !grid_length, Nat.eqb_refl. simpl negb.
    rewrite Hout. rewrite <- Eg.
    assert (V1 : vertsplit (map (fun o : Q * Q * (Q * Q) => fst (fst o)) (grid D E O)) D =
                 Ok (map (fun el => map (fun j => n1 el j + mu * (v el j - y el j))%Q (seq 0 D)) (seq 0 E))).
    { rewrite map_grid. unfold O, nu_next. simpl fst. apply vertsplit_grid. exact Hd. }
    assert (V2 : vertsplit (map (fun o : Q * Q * (Q * Q) => snd (fst o)) (grid D E O)) D =
                 Ok (map (fun el => map (fun j => n2 el j + mu * (u el j - v el j))%Q (seq 0 D)) (seq 0 E))).
    { rewrite map_grid. unfold O, nu_next. simpl. apply vertsplit_grid. exact Hd. }
    cbv iota. cbv beta. rewrite V1. cbv iota. cbv beta. rewrite V2. cbv iota. cbv beta.
    rewrite Hsn. rewrite Herr'. rewrite Him. simpl andb. rewrite map_length, seq_length. fold new.
    cbn [negb andb]. cbv beta iota. destruct (st_last (im_state s1)); reflexivity. }
  assert (Hm : forall st, exists st', update_mu opts [e1; e2] (st_last st) st = (st', Ok tt)).
  { intros st. unfold update_mu. destruct (al_skip_mu opts); [eexists; reflexivity|].
    simpl in Hrule.
    destruct Hrule as [<-|[<-|[<-|[<-|[]]]]]; simpl; try (eexists; reflexivity).
    destruct (st_last st); eexists; reflexivity. }
  destruct (Hm (im_state (set_im_tilde (Some new) s))) as [st' Hst].
  exists (mkImn (set_st_last (Some [e1; e2]) st') (Some new)), e1, e2, new.
  split; [|split; [|split; [|split; [|split]]]].
  - unfold imn_update. unfold cbind at 1. unfold cres at 1. rewrite Hj.
    unfold cbind at 1. rewrite Hcomp.
    unfold cbind at 1, on_state at 1. simpl im_state in *. rewrite Hst. reflexivity.
  - split.
    + intros el j A B. apply (Hub (v el j - y el j, u el j - v el j)%Q). apply Hin. exists el, j. auto.
    + destruct Ha1 as [o [Ho ->]]. apply Hin in Ho. destruct Ho as [el [j [A [B ->]]]].
      exists el, j. repeat split; try assumption.
  - split.
    + intros el j A B. apply (Hub (v el j - y el j, u el j - v el j)%Q). apply Hin. exists el, j. auto.
    + destruct Ha2 as [o [Ho ->]]. apply Hin in Ho. destruct Ho as [el [j [A [B ->]]]].
      exists el, j. repeat split; assumption.
  - reflexivity.
  - reflexivity.
  - intros el Hel. unfold new. rewrite combine_maps. rewrite dget_seq by exact Hel. reflexivity.
Qed.

(** Solving and updating with the solution. *)
Lemma imn_balanced : forall opts th p s mu y u n1 n2,
  1 <= al_degree opts -> 1 <= al_elements opts ->
  al_skip_compute opts = false -> al_skip_nu opts = false -> al_improve opts = false ->
  In (al_rule opts) ["constant"; "primal"; "primal-dual"; "bounded-increase"]%string ->
  holds (al_degree opts) (al_elements opts) [y; u] th ->
  holds (al_degree opts) (al_elements opts) [n1; n2] (st_nu (im_state s)) ->
  nth_error (match p with Some v => v | None => [] end ++ st_mu (im_state s)) 0 = Some mu ->
  (0 < mu)%Q ->
  exists r s' errors d m1 m2,
    imn_solve opts (Some th) p s = (s, Ok r) /\
    imn_update opts (Some th) p (ir_x r) s = (s', Ok errors) /\
    im_tilde s' = Some d /\
    forall el, el < al_elements opts ->
      dget Nat.eqb el d = Some (map (m1 el) (seq 0 (al_degree opts)), map (m2 el) (seq 0 (al_degree opts))) /\
      forall j, (m1 el j == m2 el j)%Q.
Proof.
  intros opts th p s mu y u n1 n2 Hd He Hsk Hsn Him Hrule H1 H2 Hmu Hpos.
  destruct (imn_solve_run opts th p s mu [y; u] [n1; n2] y u n1 n2 [] Hd He H1 H2 eq_refl Hmu) as [r [Hr Hx]].
  { intros E. rewrite E in Hpos. lra. }
  destruct (imn_updates opts th p s mu y u n1 n2 _ (ir_x r) Hd He Hsk Hsn Him Hrule H1 H2 Hmu Hx)
    as [s' [e1 [e2 [d [Hu [_ [_ [_ [Ht Hg]]]]]]]]].
  set (v := fun el j => u_c mu (y el j) (u el j) (n1 el j) (n2 el j)) in *.
  exists r, s', [e1; e2], d, (fun el j => n1 el j + mu * (v el j - y el j))%Q,
         (fun el j => n2 el j + mu * (u el j - v el j))%Q.
  split; [exact Hr|]. split; [exact Hu|]. split; [exact Ht|].
  intros el Hel. split; [apply Hg; exact Hel|].
  intros j. apply nu_next_equal. exact Hpos.
Qed.

(** ** The multipliers are never taken *)

Definition same_nu (s s' : imn) : Prop := st_nu (im_state s') = st_nu (im_state s).

Lemma cbind_nu {A B : Type} : forall (c : cmd imn A) (k : A -> cmd imn B) s,
  same_nu s (fst (c s)) -> (forall a s1, same_nu s1 (fst (k a s1))) -> same_nu s (fst (cbind c k s)).
Proof.
  intros c k s H1 H2. unfold cbind. destruct (c s) as [s1 [a|e]] eqn:E; simpl in *; [|exact H1].
  unfold same_nu in *. rewrite H2. exact H1.
Qed.
Lemma same_nu_refl : forall s, same_nu s s. Proof. reflexivity. Qed.

Lemma imn_solve_nu : forall opts th p s, same_nu s (fst (imn_solve opts th p s)).
Proof.
  intros. unfold imn_solve.
  apply cbind_nu; [apply same_nu_refl|]. intros a s1.
  apply cbind_nu; [apply same_nu_refl|]. intros c s2.
  apply cbind_nu; [apply same_nu_refl|]. intros m s3.
  destruct (Qeq_bool m 0); apply same_nu_refl.
Qed.
Lemma imn_improvement_nu : forall new i e l s, same_nu s (fst (imn_improvement new i e l s)).
Proof.
  intros. unfold imn_improvement. destruct (Qle_bool l e); [apply same_nu_refl|].
  apply cbind_nu; [reflexivity|]. intros _ s1.
  apply cbind_nu; [unfold cguard; destruct (im_tilde s1); apply same_nu_refl|]. intros _ s2.
  apply cbind_nu; [|intros _ s3; reflexivity].
  unfold cguard. destruct (im_tilde s2); [destruct (existsb _ _)|]; apply same_nu_refl.
Qed.
Lemma crun_nu {O : Type} : forall (f : O -> cmd imn unit) l,
  (forall o s, same_nu s (fst (f o s))) -> forall s, same_nu s (fst (crun f l s)).
Proof.
  intros f l H. induction l as [|o l IH]; intros s; simpl; [apply same_nu_refl|].
  apply cbind_nu; [apply H|]. intros _ s1. apply IH.
Qed.
Lemma imn_compute_nu : forall opts p th raw s, same_nu s (fst (imn_compute opts p th raw s)).
Proof.
  intros. unfold imn_compute. destruct (al_skip_compute opts); [apply same_nu_refl|].
  apply cbind_nu; [apply same_nu_refl|]. intros cols s1.
  apply cbind_nu; [apply same_nu_refl|]. intros mu s2.
  destruct (negb _); [apply same_nu_refl|].
  apply cbind_nu; [apply same_nu_refl|]. intros n1 s3.
  apply cbind_nu; [apply same_nu_refl|]. intros n2 s4.
  apply cbind_nu; [|intros _ s5; apply same_nu_refl].
  destruct (al_skip_nu opts); [apply same_nu_refl|].
  destruct (st_last (im_state s4)); [|reflexivity].
  destruct (_ && _)%bool; [|reflexivity].
  apply crun_nu. intros o s5. apply imn_improvement_nu.
Qed.
Lemma imn_update_nu : forall opts th p raw s, same_nu s (fst (imn_update opts th p raw s)).
Proof.
  intros. unfold imn_update.
  apply cbind_nu; [apply same_nu_refl|]. intros a s1.
  apply cbind_nu; [apply imn_compute_nu|]. intros e s2.
  apply cbind_nu.
  { unfold on_state, same_nu. destruct (update_mu opts e (st_last (im_state s2)) (im_state s2)) as [st r] eqn:E.
    simpl. apply update_mu_keeps in E. apply E. }
  intros _ s3. apply cbind_nu; [reflexivity|]. intros _ s4. apply same_nu_refl.
Qed.
Lemma imn_apply_nu : forall opts op s, same_nu s (fst (imn_apply opts op s)).
Proof.
  intros opts [th p|th p raw|mu] s; simpl.
  - apply cbind_nu; [apply imn_solve_nu|]. intros; apply same_nu_refl.
  - apply cbind_nu; [apply imn_update_nu|]. intros; apply same_nu_refl.
  - unfold on_state, same_nu, set_mu. destruct (_ =? _); [reflexivity|].
    destruct mu as [|a [|b l]]; reflexivity.
Qed.
Lemma imn_run_nu : forall opts ops s, same_nu s (imn_run opts ops s).
Proof.
  intros opts ops. unfold imn_run, run_caught.
  induction ops as [|op ops IH]; intros s; simpl; [apply same_nu_refl|].
  unfold same_nu in *. rewrite IH. apply imn_apply_nu.
Qed.

Lemma map_const_repeat {A B : Type} : forall (b : B) (l : list A), map (fun _ => b) l = repeat b (length l).
Proof. intros b l. induction l; simpl; [reflexivity|]. rewrite IHl. reflexivity. Qed.

Lemma zero_holds : forall d e n,
  holds d e (repeat (fun _ _ => 0%Q) n) (create_constant_theta 0%Q (n * d) 1 e).
Proof.
  intros d e n. split.
  - unfold create_constant_theta. rewrite map_length, seq_length. reflexivity.
  - intros el Hel. rewrite constant_theta_lookup.
    destruct (Nat.ltb_spec el e); [|lia]. f_equal. rewrite Nat.mul_1_r.
    induction n; simpl; [reflexivity|]. rewrite repeat_app, IHn, map_const_repeat, seq_length. reflexivity.
Qed.

Lemma imn_always_averages : forall opts ops th p y u r s',
  1 <= al_degree opts -> 1 <= al_elements opts ->
  holds (al_degree opts) (al_elements opts) [y; u] th ->
  imn_solve opts (Some th) p (imn_run opts ops (imn_start opts 1)) = (s', Ok r) ->
  exists v, ir_x r = by_points (al_degree opts) (al_elements opts) v /\
    forall el j, (v el j == (y el j + u el j) / 2)%Q.
Proof.
  intros opts ops th p y u r s' Hd He Hth Hs.
  set (s := imn_run opts ops (imn_start opts 1)) in *.
  assert (Hnu : holds (al_degree opts) (al_elements opts) [(fun _ _ => 0%Q); (fun _ _ => 0%Q)] (st_nu (im_state s))).
  { unfold s. rewrite imn_run_nu. apply (zero_holds (al_degree opts) (al_elements opts) 2). }
  destruct (nth_error (match p with Some v => v | None => [] end ++ st_mu (im_state s)) 0) as [mu|] eqn:Emu.
  - destruct (Qeq_bool mu 0) eqn:E0.
    + exfalso. destruct (holds_joined _ _ _ _ _ _ He Hth Hnu) as [t [Hj Ht]].
      unfold imn_solve, join_nu_to_theta, cbind, cres in Hs. rewrite Hj in Hs.
      rewrite (split_theta_has _ _ _ _ _ _ _ _ Hd He Ht) in Hs.
      rewrite with_mu_app in Hs. unfold at_index in Hs. rewrite Emu, E0 in Hs. discriminate.
    + destruct (imn_solve_run opts th p s mu _ _ _ _ _ _ [] Hd He Hth Hnu eq_refl Emu) as [r' [Hr Hx]].
      { intros H. apply Qeq_bool_iff in H. congruence. }
      rewrite Hr in Hs. assert (r' = r) by congruence. subst r'.
      eexists. split; [exact Hx|]. intros el j. apply u_c_average. reflexivity.
  - exfalso. destruct (holds_joined _ _ _ _ _ _ He Hth Hnu) as [t [Hj Ht]].
    unfold imn_solve, join_nu_to_theta, cbind, cres in Hs. rewrite Hj in Hs.
    rewrite (split_theta_has _ _ _ _ _ _ _ _ Hd He Ht) in Hs.
    rewrite with_mu_app in Hs. unfold at_index in Hs. rewrite Emu in Hs. discriminate.
Qed.

(** Connections of two entries: theta holds both outputs, then both inputs. *)
Lemma imn_pairs : forall opts th s mu y1 y2 u1 u2 gs,
  1 <= al_degree opts -> 1 <= al_elements opts ->
  holds (al_degree opts) (al_elements opts) [y1; y2; u1; u2] th ->
  holds (al_degree opts) (al_elements opts) gs (st_nu (im_state s)) ->
  nth_error (st_mu (im_state s)) 0 = Some mu -> ~ (mu == 0)%Q ->
  exists r v, imn_solve opts (Some th) None s = (s, Ok r) /\
    ir_x r = by_points (al_degree opts) (al_elements opts) v /\
    forall el j, (v el j == (u2 el j - u1 el j) / (2 * mu) + (y1 el j + y2 el j) / 2)%Q.
Proof.
  intros opts th s mu y1 y2 u1 u2 gs Hd He Hth Hnu Hmu Hnz.
  destruct (imn_solve_run opts th None s mu _ _ _ _ _ _ gs Hd He Hth Hnu eq_refl Hmu Hnz) as [r [Hr Hx]].
  exists r. eexists. split; [exact Hr|]. split; [exact Hx|]. intros el j. reflexivity.
Qed.

Lemma pond_pair_refuted : exists opts (th : theta Q) y1 y2 u1 u2 r,
  holds (al_degree opts) (al_elements opts) [y1; y2; u1; u2] th /\
  imn_solve opts (Some th) None (imn_start opts 2) = (imn_start opts 2, Ok r) /\
  (forall el j, y1 el j == 3 /\ u1 el j == 3 /\ y2 el j == 5 /\ u2 el j == 5)%Q /\
  length (ir_x r) = (al_degree opts * al_elements opts)%nat /\
  Forall (fun x => x == 5)%Q (ir_x r).
Proof.
  pose (opts := al_default).
  exists opts.
  exists (map (fun i => (i, [3; 3; 3; 5; 5; 5; 3; 3; 3; 5; 5; 5]%Q)) (seq 0 20)).
  exists (fun _ _ => 3%Q), (fun _ _ => 5%Q), (fun _ _ => 3%Q), (fun _ _ => 5%Q).
  eexists. split; [|split; [|split; [|split]]].
  - split; [reflexivity|]. intros el Hel. rewrite (dget_map_keys (fun _ => [3; 3; 3; 5; 5; 5; 3; 3; 3; 5; 5; 5]%Q)).
    replace (memb Nat.eqb el (seq 0 20)) with true; [reflexivity|].
    symmetry. apply memb_nat, in_seq. simpl in Hel. lia.
  - vm_compute. reflexivity.
  - intros. repeat split; reflexivity.
  - reflexivity.
  - repeat constructor; reflexivity.
Qed.

(** ** The problem it stands for *)

Lemma penalty_is_lagrangian : forall F env (nu1 nu2 mu1 mu2 : sym) (g1 g2 : expr) (y u v : Q),
  (env mu1 == env mu2)%Q -> (eval F env g1 == v - y)%Q -> (eval F env g2 == u - v)%Q ->
  (eval F env (penalty [nu1; nu2] [mu1; mu2] [g1; g2]) ==
   node_lagrangian (env mu1) y u (env nu1) (env nu2) v)%Q.
Proof.
  intros F env nu1 nu2 mu1 mu2 g1 g2 y u v Hm H1 H2.
  unfold penalty, node_lagrangian. simpl.
  rewrite <- Hm, H1, H2. field.
Qed.

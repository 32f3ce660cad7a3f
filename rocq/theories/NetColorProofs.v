From Coq Require Import String Permutation Sorted.
From Verif Require Import Base BaseProofs ExprModel NetModel NetSpec NetProofs.
Local Open Scope list_scope.

(** ** Sorting *)

Section Sort.
  Context {A : Type} (key : A -> Z).

  Lemma insert_by_perm : forall a l, Permutation (insert_by key a l) (a :: l).
  Proof.
    intros a l; induction l as [|b l IH]; simpl; [reflexivity|].
    destruct (key a <=? key b)%Z; [reflexivity|]. rewrite IH. apply perm_swap.
  Qed.

  Lemma sort_by_perm : forall l, Permutation (sort_by key l) l.
  Proof.
    intros l; induction l as [|a l IH]; simpl; [reflexivity|]. rewrite insert_by_perm. constructor. exact IH.
  Qed.

  Definition key_le (a b : A) : Prop := (key a <= key b)%Z.

  Lemma insert_by_sorted : forall a l, StronglySorted key_le l -> StronglySorted key_le (insert_by key a l).
  Proof.
    intros a l H; induction H as [|b l Hl IH Hf]; simpl; [repeat constructor|].
    destruct (Z.leb_spec (key a) (key b)) as [L|L].
    - constructor; [constructor; assumption|]. constructor; [exact L|].
      eapply Forall_impl; [|exact Hf]. intros c Hc. unfold key_le in *. lia.
    - constructor; [exact IH|].
      eapply (Permutation_Forall (Permutation_sym (insert_by_perm a l))). constructor; [unfold key_le; lia|exact Hf].
  Qed.

  Lemma sort_by_sorted : forall l, StronglySorted key_le (sort_by key l).
  Proof. intros l; induction l as [|a l IH]; simpl; [constructor|]. apply insert_by_sorted, IH. Qed.

  (** Equal keys keep their order. *)
  Lemma insert_by_stable : forall a l k, StronglySorted key_le l ->
      filter (fun b => Z.eqb (key b) k) (insert_by key a l) = filter (fun b => Z.eqb (key b) k) (a :: l).
  Proof.
    intros a l k H; induction H as [|b l Hl IH Hf]; [reflexivity|]. simpl insert_by.
    destruct (Z.leb_spec (key a) (key b)) as [L|L]; [reflexivity|].
    simpl in *. rewrite IH. destruct (Z.eqb_spec (key b) k), (Z.eqb_spec (key a) k); try reflexivity. lia.
  Qed.

  Lemma sort_by_stable : forall l k,
      filter (fun b => Z.eqb (key b) k) (sort_by key l) = filter (fun b => Z.eqb (key b) k) l.
  Proof.
    intros l k; induction l as [|a l IH]; [reflexivity|]. change (sort_by key (a :: l)) with (insert_by key a (sort_by key l)).
    rewrite insert_by_stable by apply sort_by_sorted. simpl. rewrite IH. reflexivity.
  Qed.
End Sort.

Lemma sorted_nodes_listing : forall w l,
    (forall a, in_network w a -> exists i, has_id w a i) ->
    sorted_nodes w = Ok l -> listing w l.
Proof.
  intros w l Hall H. unfold sorted_nodes in H. destruct ((1 <? _)%nat && _)%bool; [discriminate|].
  injection H as <-. split; [apply sort_by_perm|].
  set (key := fun a => match id_of w a with Some i => i | None => 0%Z end).
  assert (P : forall a, In a (sort_by key (dkeys (w_graph w))) -> in_network w a).
  { intros a Ha. apply (Permutation_in a (sort_by_perm key _)) in Ha. exact Ha. }
  pose proof (sort_by_sorted key (dkeys (w_graph w))) as S. revert P S.
  generalize (sort_by key (dkeys (w_graph w))) as l. intros l P S. unfold in_id_order.
  induction S as [|a l S IH Hf]; constructor; [apply IH; intros b Hb; apply P; right; exact Hb|].
  rewrite Forall_forall in *. intros b Hb. specialize (Hf b Hb).
  destruct (Hall a) as [i Hi]; [apply P; left; reflexivity|]. destruct (Hall b) as [j Hj]; [apply P; right; exact Hb|].
  exists i, j. split; [exact Hi|]. split; [exact Hj|]. unfold key_le, key in Hf.
  apply id_of_has in Hi. apply id_of_has in Hj. rewrite Hi, Hj in Hf. exact Hf.
Qed.

(** ** Greedy colouring *)

Lemma first_free_run : forall fuel k used,
    ~ In (first_free fuel k used) used \/ (forall i, (k <= i < k + fuel)%nat -> In i used).
Proof.
  intros fuel; induction fuel as [|fuel IH]; intros k used; simpl; [right; intros i Hi; lia|].
  destruct (memb Nat.eqb k used) eqn:E.
  - apply memb_nat in E. destruct (IH (S k) used) as [H|H]; [left; exact H|right].
    intros i Hi. destruct (Nat.eq_dec i k) as [->|]; [exact E|]. apply H. lia.
  - left. intros K. apply memb_nat in K. congruence.
Qed.

Lemma least_free_ok : forall used, ~ In (least_free used) used.
Proof.
  intros used. unfold least_free. destruct (first_free_run (S (length used)) 0 used) as [H|H]; [exact H|].
  exfalso. assert (Inc : incl (seq 0 (S (length used))) used).
  { intros i Hi. apply in_seq in Hi. apply H. lia. }
  apply (NoDup_incl_length (seq_NoDup _ _)) in Inc. rewrite seq_length in Inc. lia.
Qed.

Definition coloured_ok (nbrs : addr -> list addr) (colors : dict addr nat) : Prop :=
  forall a b c, In a (nbrs b) -> In b (nbrs a) -> a <> b ->
    dget Nat.eqb a colors = Some c -> dget Nat.eqb b colors = Some c -> False.

Lemma colour_fold : forall nbrs l colors,
    NoDup (dkeys colors ++ l) -> coloured_ok nbrs colors ->
    let r := fold_left (colour_step nbrs) l colors in
    dkeys r = dkeys colors ++ l /\ coloured_ok nbrs r.
Proof.
  intros nbrs l; induction l as [|a l IH]; intros colors Hnd Hok; simpl.
  - rewrite app_nil_r. split; [reflexivity|exact Hok].
  - assert (Ha : ~ In a (dkeys colors)).
    { intros K. apply (NoDup_app_disjoint _ _ _ a Hnd K). left. reflexivity. }
    assert (Ek : dkeys (colour_step nbrs colors a) = dkeys colors ++ [a]).
    { unfold colour_step. apply (dkeys_dset_notIn _ eqb_ok), Ha. }
    destruct (IH (colour_step nbrs colors a)) as [E1 E2].
    + rewrite Ek, <- app_assoc. exact Hnd.
    + set (used := flat_map (fun b => match dget Nat.eqb b colors with Some c => [c] | None => [] end) (nbrs a)).
      pose proof (least_free_ok used) as Hf.
      assert (G : forall b c, In b (nbrs a) -> dget Nat.eqb b colors = Some c -> c <> least_free used).
      { intros b c Hb E ->. apply Hf. unfold used at 2. apply in_flat_map. exists b. split; [exact Hb|].
        rewrite E. left. reflexivity. }
      intros x y c Hxy Hyx Hne Hx Hy. unfold colour_step in Hx, Hy. fold used in Hx, Hy.
      destruct (Nat.eq_dec x a) as [->|Nx]; destruct (Nat.eq_dec y a) as [->|Ny].
      * apply Hne. reflexivity.
      * rewrite (dget_dset_same _ eqb_ok) in Hx. rewrite (dget_dset_other _ eqb_ok) in Hy by auto.
        apply (G y c Hyx Hy). congruence.
      * rewrite (dget_dset_same _ eqb_ok) in Hy. rewrite (dget_dset_other _ eqb_ok) in Hx by auto.
        apply (G x c Hxy Hx). congruence.
      * rewrite (dget_dset_other _ eqb_ok) in Hx by auto. rewrite (dget_dset_other _ eqb_ok) in Hy by auto.
        apply (Hok x y c); assumption.
    + split; [rewrite E1, Ek, <- app_assoc; reflexivity|exact E2].
Qed.

Lemma greedy_ok : forall nodes degree nbrs, NoDup nodes ->
    let r := greedy_color nodes degree nbrs in
    Permutation (dkeys r) nodes /\ NoDup (dkeys r) /\ coloured_ok nbrs r.
Proof.
  intros nodes degree nbrs Hnd. unfold greedy_color.
  set (key := fun a => (- Z.of_nat (degree a))%Z).
  pose proof (sort_by_perm key nodes) as P.
  assert (Hs : NoDup (sort_by key nodes)) by (apply (Permutation_NoDup (Permutation_sym P) Hnd)).
  destruct (colour_fold nbrs (sort_by key nodes) []) as [E1 E2]; [exact Hs|intros a b c _ _ _ K; discriminate|].
  simpl in E1. split; [rewrite E1; exact P|]. split; [rewrite E1; exact Hs|exact E2].
Qed.

(** ** Groups of one colour *)

Lemma dset_concat : forall c (l : list addr) (d : dict nat (list addr)) a,
    Permutation (concat (dvals (dset Nat.eqb c
       ((match dget Nat.eqb c d with Some l => l | None => [] end) ++ [a]) d)))
       (concat (dvals d) ++ [a]).
Proof.
  intros c _ d a; induction d as [|[c' l'] d IH]; simpl; [reflexivity|].
  destruct (Nat.eqb_spec c c') as [->|Hn]; simpl.
  - rewrite <- !app_assoc. apply Permutation_app_head. apply Permutation_app_comm.
  - rewrite <- app_assoc. apply Permutation_app_head. exact IH.
Qed.

Lemma groups_fold : forall (l : list (addr * nat)) groups,
    NoDup (dkeys groups) -> Forall (fun g => g <> []) (dvals groups) ->
    let r := fold_left group_step l groups in
    NoDup (dkeys r) /\ Forall (fun g => g <> []) (dvals r) /\
    Permutation (concat (dvals r)) (concat (dvals groups) ++ map fst l) /\
    (forall c g a, In (c, g) r -> In a g ->
       In (a, c) l \/ exists g', In (c, g') groups /\ In a g').
Proof.
  intros l; induction l as [|[a c] l IH]; intros groups Hnd Hne.
  - simpl. rewrite app_nil_r. split; [exact Hnd|]. split; [exact Hne|]. split; [reflexivity|]. intros c g a H Ha. right. eauto.
  - cbn [fold_left]. set (g1 := group_step groups (a, c)).
    assert (Hnd1 : NoDup (dkeys g1)) by apply dset_NoDup, Hnd.
    assert (Hne1 : Forall (fun g => g <> []) (dvals g1)).
    { unfold g1, group_step. apply Forall_forall. intros g Hg. unfold dvals in Hg. apply in_map_iff in Hg.
      destruct Hg as [[k v] [<- Hg]]. apply In_dset in Hg. simpl. destruct Hg as [[-> ->]|Hg].
      - intros K. destruct (app_cons_not_nil _ _ _ (eq_sym K)).
      - rewrite Forall_forall in Hne. apply Hne. apply in_map_iff. exists (k, v). auto. }
    destruct (IH g1 Hnd1 Hne1) as [R1 [R2 [R3 R4]]]. split; [exact R1|]. split; [exact R2|]. split.
    + rewrite R3. simpl map. change (a :: map fst l) with ([a] ++ map fst l). rewrite app_assoc.
      apply Permutation_app_tail. apply (dset_concat c []).
    + intros c0 g x Hg Hx. destruct (R4 c0 g x Hg Hx) as [K|[g' [K Kx]]]; [left; right; exact K|].
      unfold g1, group_step in K. apply In_dset in K. simpl in K. destruct K as [[-> ->]|K]; [|right; eauto].
      apply in_app_iff in Kx. destruct Kx as [Kx|[<-|[]]]; [|left; left; reflexivity].
      destruct (dget Nat.eqb c groups) as [old|] eqn:E; [|contradiction].
      right. exists old. split; [apply (dget_In _ eqb_ok), E|exact Kx].
Qed.

Lemma has_edge_carries : forall g a b, directed_graph g -> (has_edge g a b = true <-> exists y u, carries g a b y u).
Proof.
  intros g a b D. unfold has_edge. destruct (edge g a b) as [[y u]|] eqn:E; split; try discriminate.
  - intros _. exists y, u. apply carries_edge; assumption.
  - reflexivity.
  - intros [y [u K]]. apply carries_edge in K; [|exact D]. congruence.
Qed.

Lemma carries_nodes : forall g a b y u, directed_graph g -> carries g a b y u -> In a (dkeys g) /\ In b (dkeys g).
Proof.
  intros g a b y u [_ H] [d [Hd Hb]]. split; [apply in_map_iff; exists (a, d); auto|].
  apply (proj2 (H a d Hd)). apply in_map_iff. exists (b, (y, u)). auto.
Qed.

Lemma und_nbrs_linked : forall g a b, directed_graph g -> (In b (und_nbrs g a) <-> linked g a b).
Proof.
  intros g a b D. unfold und_nbrs, linked. rewrite filter_In, orb_true_iff, !has_edge_carries by exact D. split.
  - intros [_ [[y [u K]]|[y [u K]]]]; exists y, u; auto.
  - intros [y [u [K|K]]]; (split; [destruct (carries_nodes _ _ _ _ _ D K); assumption|]); [left|right]; eauto.
Qed.

Lemma groups_ok : forall g, directed_graph g ->
    let groups := get_map_coloring_groups g in
    Permutation (concat groups) (dkeys g) /\ NoDup (concat groups) /\ Forall (fun grp => grp <> []) groups /\
    (forall grp a b, In grp groups -> In a grp -> In b grp -> a <> b -> ~ linked g a b).
Proof.
  intros g D groups. unfold get_map_coloring_groups in groups.
  destruct (greedy_ok (dkeys g) (und_degree g) (und_nbrs g) (proj1 D)) as [P [N C]].
  set (colors := greedy_color (dkeys g) (und_degree g) (und_nbrs g)) in *.
  destruct (groups_fold colors []) as [R1 [R2 [R3 R4]]]; [constructor|constructor|].
  fold groups in R2, R3. simpl in R3.
  assert (PP : Permutation (concat groups) (dkeys g)) by (rewrite R3; exact P).
  split; [exact PP|]. split; [apply (Permutation_NoDup (Permutation_sym PP)), (proj1 D)|]. split; [exact R2|].
  intros grp a b Hg Ha Hb Hne L. unfold groups, dvals in Hg. apply in_map_iff in Hg. destruct Hg as [[c g'] [E Hg]]. simpl in E. subst g'.
  destruct (R4 c grp a Hg Ha) as [Ka|[x [[] _]]]. destruct (R4 c grp b Hg Hb) as [Kb|[x [[] _]]].
  apply (C b a c).
  - apply und_nbrs_linked; assumption.
  - apply und_nbrs_linked; [exact D|]. destruct L as [y [u L]]. exists y, u. tauto.
  - auto.
  - apply (In_dget _ eqb_ok); assumption.
  - apply (In_dget _ eqb_ok); assumption.
Qed.

(** ** The default blocks *)

Lemma runs_concat : forall l, concat (map snd (runs l)) = map fst l.
Proof.
  intros l; induction l as [|[a c] l IH]; [reflexivity|]. simpl. rewrite <- IH.
  destruct (runs l) as [|[c' r] rest]; [reflexivity|]. destruct (c =? c')%nat; reflexivity.
Qed.

Lemma runs_colour : forall l c r a, In (c, r) (runs l) -> In a r -> In (a, c) l.
Proof.
  intros l; induction l as [|[a0 c0] l IH]; intros c r a H Ha; [contradiction|]. simpl in H.
  destruct (runs l) as [|[c' r'] rest].
  - destruct H as [H|[]]. injection H as <- <-. destruct Ha as [<-|[]]. left. reflexivity.
  - destruct (Nat.eqb_spec c0 c') as [->|].
    + destruct H as [H|H].
      * injection H as <- <-. destruct Ha as [<-|Ha]; [left; reflexivity|right].
        apply (IH c' r' a); [left; reflexivity|exact Ha].
      * right. apply (IH c r a); [right; exact H|exact Ha].
    + destruct H as [H|H].
      * injection H as <- <-. destruct Ha as [<-|[]]. left. reflexivity.
      * right. apply (IH c r a); [exact H|exact Ha].
Qed.

Lemma runs_nonempty : forall l c r, In (c, r) (runs l) -> r <> [].
Proof.
  intros l; induction l as [|[a0 c0] l IH]; intros c r H; [contradiction|]. simpl in H.
  destruct (runs l) as [|[c' r'] rest].
  - destruct H as [H|[]]. injection H as <- <-. discriminate.
  - destruct (c0 =? c')%nat; destruct H as [H|H]; try (injection H as <- <-; discriminate).
    + apply (IH c r). right. exact H.
    + apply (IH c r). exact H.
Qed.

Lemma dupdate_In : forall (V : Type) (e d : dict nat V) k v,
    In (k, v) (dupdate Nat.eqb d e) -> In (k, v) e \/ In (k, v) d.
Proof.
  intros V e; induction e as [|[k0 v0] e IH]; intros d k v H; unfold dupdate in *; simpl in *; [auto|].
  destruct (IH _ k v H) as [K|K]; [auto|]. apply In_dset in K. destruct K as [[-> ->]|K]; auto.
Qed.

Lemma dupdate_NoDup : forall (V : Type) (e d : dict nat V), NoDup (dkeys d) -> NoDup (dkeys (dupdate Nat.eqb d e)).
Proof.
  intros V e; induction e as [|[k0 v0] e IH]; intros d H; unfold dupdate in *; simpl in *; [exact H|].
  apply IH, dset_NoDup, H.
Qed.

Lemma NoDup_concat_sub : forall (B R : dict nat (list addr)),
    NoDup (dkeys B) -> (forall kv, In kv B -> In kv R) -> NoDup (concat (map snd R)) ->
    NoDup (concat (dvals B)).
Proof.
  intros B; induction B as [|[k v] B IH]; intros R Hk Hin Hc; [constructor|]. simpl in *.
  inversion Hk; subst.
  apply NoDup_app_intro.
  - specialize (Hin (k, v) (or_introl eq_refl)). apply in_split in Hin. destruct Hin as [R1 [R2 ->]].
    rewrite map_app, concat_app in Hc. apply NoDup_app_r in Hc. simpl in Hc. apply NoDup_app_l in Hc. exact Hc.
  - apply (IH R); [assumption| |assumption]. intros kv Hkv. apply Hin. right. exact Hkv.
  - intros a Ha Hb. apply in_concat in Hb. destruct Hb as [v' [Hv' Ha']]. apply in_map_iff in Hv'.
    destruct Hv' as [[k' v''] [E Hv']]. simpl in E. subst v''.
    assert (Hkk : k <> k'). { intros ->. apply H1. apply in_map_iff. exists (k', v'). auto. }
    pose proof (Hin (k, v) (or_introl eq_refl)) as I1. pose proof (Hin (k', v') (or_intror Hv')) as I2.
    apply in_split in I1. destruct I1 as [R1 [R2 ->]]. rewrite map_app, concat_app in Hc. simpl in Hc.
    apply in_app_iff in I2. simpl in I2. destruct I2 as [I2|[I2|I2]].
    + apply (NoDup_app_disjoint _ _ _ a Hc).
      * apply in_concat. exists v'. split; [apply in_map_iff; exists (k', v'); auto|exact Ha'].
      * apply in_app_iff. left. exact Ha.
    + congruence.
    + apply NoDup_app_r in Hc. apply (NoDup_app_disjoint _ _ _ a Hc Ha).
      apply in_concat. exists v'. split; [apply in_map_iff; exists (k', v'); auto|exact Ha'].
Qed.

Lemma default_blocks_ok : forall g, directed_graph g ->
    let blocks := default_blocks g in
    NoDup (dkeys blocks) /\ NoDup (concat (dvals blocks)) /\ incl (concat (dvals blocks)) (dkeys g) /\
    Forall (fun b => b <> []) (dvals blocks).
Proof.
  intros g D blocks.
  destruct (greedy_ok (dkeys g) (dir_degree g) (dir_nbrs g) (proj1 D)) as [P [N C]].
  unfold default_blocks in blocks. set (colors := greedy_color (dkeys g) (dir_degree g) (dir_nbrs g)) in *.
  assert (S : forall kv, In kv blocks -> In kv (runs colors)).
  { intros [k v] H. apply dupdate_In in H. destruct H as [H|[]]. exact H. }
  assert (K : NoDup (dkeys blocks)) by (apply dupdate_NoDup; constructor).
  split; [exact K|]. split; [|split].
  - apply (NoDup_concat_sub blocks (runs colors) K S). rewrite runs_concat. exact N.
  - intros a Ha. apply in_concat in Ha. destruct Ha as [v [Hv Ha]]. apply in_map_iff in Hv. destruct Hv as [[k v'] [E Hv]].
    simpl in E. subst v'. apply S in Hv. apply (runs_colour colors k v a Hv) in Ha.
    apply (Permutation_in a P). apply in_map_iff. exists (a, k). auto.
  - apply Forall_forall. intros v Hv. apply in_map_iff in Hv. destruct Hv as [[k v'] [E Hv]]. simpl in E. subst v'.
    apply S in Hv. apply (runs_nonempty colors k v Hv).
Qed.

From Coq Require Import String Permutation Sorted.
From Verif Require Import Base BaseProofs UtilModel UtilProofs ExprModel NlpModel SysModel SysSpec
  SysProofs SysCtlProofs SysMergeProofs SimModel OcpModel OcpSpec OcpProofs DataModel NetModel NetSpec.
Local Open Scope list_scope.

(** ** Graphs *)

Lemma eqb_ok : forall a b : nat, Nat.eqb a b = true <-> a = b.
Proof. exact Nat.eqb_eq. Qed.

Lemma add_node_keys : forall a g, dkeys (add_node a g) = if in_dec Nat.eq_dec a (dkeys g) then dkeys g else dkeys g ++ [a].
Proof.
  intros a g. unfold add_node, dhas. destruct (dget Nat.eqb a g) eqn:E; destruct (in_dec Nat.eq_dec a (dkeys g)) as [H|H].
  - reflexivity.
  - apply (dget_None _ eqb_ok) in H. congruence.
  - apply (dget_None _ eqb_ok) in E. contradiction.
  - unfold dkeys. rewrite map_app. reflexivity.
Qed.

Lemma add_node_In : forall a b g, In b (dkeys (add_node a g)) <-> b = a \/ In b (dkeys g).
Proof.
  intros a b g. rewrite add_node_keys. destruct (in_dec Nat.eq_dec a (dkeys g)) as [H|H].
  - split; [auto | intros [-> | K]; auto].
  - rewrite in_app_iff. simpl. intuition.
Qed.

Lemma dget_app : forall (V : Type) k (d e : dict nat V),
    dget Nat.eqb k (d ++ e) = match dget Nat.eqb k d with Some v => Some v | None => dget Nat.eqb k e end.
Proof.
  intros V k d e; induction d as [|[k' v] d IH]; simpl; [reflexivity|].
  destruct (Nat.eqb k k'); [reflexivity|exact IH].
Qed.

Lemma succs_add_node : forall a b g, succs (add_node a g) b = succs g b.
Proof.
  intros a b g. unfold add_node, dhas. destruct (dget Nat.eqb a g) eqn:E; [reflexivity|].
  unfold succs. rewrite dget_app. destruct (dget Nat.eqb b g) eqn:E'; [reflexivity|].
  simpl. destruct (Nat.eqb b a); reflexivity.
Qed.

Lemma edge_add_node : forall a g b c, edge (add_node a g) b c = edge g b c.
Proof. intros. unfold edge. rewrite succs_add_node. reflexivity. Qed.

Lemma dset_keys : forall (V : Type) k (v : V) (d : dict nat V),
    dkeys (dset Nat.eqb k v d) = if in_dec Nat.eq_dec k (dkeys d) then dkeys d else dkeys d ++ [k].
Proof.
  intros V k v d. destruct (in_dec Nat.eq_dec k (dkeys d)) as [H|H].
  - apply (dkeys_dset_In _ eqb_ok), H.
  - apply (dkeys_dset_notIn _ eqb_ok), H.
Qed.

Lemma add_edge_keys : forall a b c g, dkeys (add_edge a b c g) = dkeys (add_node b (add_node a g)).
Proof.
  intros a b c g. unfold add_edge. cbv zeta. rewrite dset_keys.
  destruct (in_dec Nat.eq_dec a _) as [H|H]; [reflexivity|].
  exfalso. apply H. apply add_node_In. right. apply add_node_In. left. reflexivity.
Qed.

Lemma succs_dset : forall g a d b, succs (dset Nat.eqb a d g) b = if Nat.eqb b a then d else succs g b.
Proof.
  intros g a d b. unfold succs. destruct (Nat.eqb_spec b a) as [->|H].
  - rewrite (dget_dset_same _ eqb_ok). reflexivity.
  - rewrite (dget_dset_other _ eqb_ok); [reflexivity|auto].
Qed.

Lemma edge_add_edge : forall a b c g a' b',
    edge (add_edge a b c g) a' b' =
    if (Nat.eqb a' a && Nat.eqb b' b)%bool then Some c else edge g a' b'.
Proof.
  intros a b c g a' b'. unfold edge, add_edge. cbv zeta. rewrite succs_dset.
  rewrite !succs_add_node.
  destruct (Nat.eqb_spec a' a) as [->|Ha]; simpl; [|rewrite ?succs_add_node; reflexivity].
  destruct (Nat.eqb_spec b' b) as [->|Hb].
  - rewrite (dget_dset_same _ eqb_ok). reflexivity.
  - rewrite (dget_dset_other _ eqb_ok); [reflexivity|auto].
Qed.

Lemma directed_nil : directed_graph [].
Proof. split; [constructor|intros a d []]. Qed.

Lemma directed_add_node : forall a g, directed_graph g -> directed_graph (add_node a g).
Proof.
  intros a g [H1 H2]. unfold add_node, dhas. destruct (dget Nat.eqb a g) eqn:E; [split; assumption|].
  apply (dget_None _ eqb_ok) in E. split.
  - rewrite map_app. apply NoDup_app_intro; [exact H1|simpl; repeat constructor; simpl; tauto|].
    simpl. intros x Hx [<-|[]]. apply E, Hx.
  - intros x d Hx. apply in_app_iff in Hx. rewrite map_app. destruct Hx as [Hx|[Hx|[]]].
    + destruct (H2 x d Hx) as [A B]. split; [exact A|]. intros b Hb. apply in_app_iff. left. apply B, Hb.
    + injection Hx as <- <-. split; [constructor|intros b []].
Qed.

Lemma In_dset : forall (V : Type) k (v : V) (d : dict nat V) k' v',
    In (k', v') (dset Nat.eqb k v d) -> (k' = k /\ v' = v) \/ In (k', v') d.
Proof.
  intros V k v d; induction d as [|[k0 v0] d IH]; simpl; intros k' v' H.
  - destruct H as [H|[]]. injection H as <- <-. auto.
  - destruct (Nat.eqb_spec k k0) as [->|Hn]; simpl in H.
    + destruct H as [H|H]; [injection H as <- <-; auto|auto].
    + destruct H as [H|H]; [auto|]. destruct (IH _ _ H); auto.
Qed.

Lemma dset_NoDup : forall (V : Type) k (v : V) (d : dict nat V), NoDup (dkeys d) -> NoDup (dkeys (dset Nat.eqb k v d)).
Proof.
  intros V k v d H. rewrite dset_keys. destruct (in_dec Nat.eq_dec k (dkeys d)) as [|Hn]; [exact H|].
  apply NoDup_app_intro; [exact H|simpl; repeat constructor; simpl; tauto|]. simpl. intros x Hx [<-|[]]. contradiction.
Qed.

Lemma succs_directed : forall g a, directed_graph g ->
    NoDup (dkeys (succs g a)) /\ (forall b, In b (dkeys (succs g a)) -> In b (dkeys g)).
Proof.
  intros g a [_ H]. unfold succs. destruct (dget Nat.eqb a g) as [d|] eqn:E.
  - apply (dget_In _ eqb_ok) in E. apply H in E. exact E.
  - split; [constructor|intros b []].
Qed.

Lemma directed_dset : forall a d g, directed_graph g -> In a (dkeys g) -> NoDup (dkeys d) ->
    (forall b, In b (dkeys d) -> In b (dkeys g)) -> directed_graph (dset Nat.eqb a d g).
Proof.
  intros a d g [H1 H2] Ha Hd Hb.
  assert (E : dkeys (dset Nat.eqb a d g) = dkeys g) by (apply (dkeys_dset_In _ eqb_ok), Ha).
  split; [change (NoDup (dkeys (dset Nat.eqb a d g))); rewrite E; exact H1|].
  intros x e Hx. change (NoDup (map fst e) /\ forall b, In b (map fst e) -> In b (dkeys (dset Nat.eqb a d g))).
  rewrite E. apply In_dset in Hx. destruct Hx as [[-> ->]|Hx]; [split; assumption|]. apply H2 with x, Hx.
Qed.

Lemma directed_add_edge : forall a b c g, directed_graph g -> directed_graph (add_edge a b c g).
Proof.
  intros a b c g H. unfold add_edge. cbv zeta. rewrite !succs_add_node.
  pose proof (succs_directed g a H) as [S1 S2].
  apply directed_dset.
  - apply directed_add_node, directed_add_node, H.
  - apply add_node_In. right. apply add_node_In. left. reflexivity.
  - apply dset_NoDup, S1.
  - intros x Hx. rewrite dset_keys in Hx.
    assert (In x (dkeys (succs g a)) \/ x = b) as [K|K].
    { match type of Hx with context [in_dec ?e ?x ?l] => destruct (in_dec e x l) end; [auto|]. apply in_app_iff in Hx. simpl in Hx. intuition. }
    + apply add_node_In. right. apply add_node_In. right. apply S2, K.
    + apply add_node_In. left. exact K.
Qed.

Lemma directed_remove : forall a b g g', directed_graph g -> remove_edge a b g = Ok g' -> directed_graph g'.
Proof.
  intros a b g g' H E. unfold remove_edge in E. destruct (dget Nat.eqb a g) as [d|] eqn:Ed; [|discriminate].
  unfold ddel in E. destruct (dhas Nat.eqb b d); [|discriminate]. injection E as <-.
  apply (dget_In _ eqb_ok) in Ed. pose proof H as [_ H2]. destruct (H2 _ _ Ed) as [A B].
  apply directed_dset; [exact H|apply in_map_iff; exists (a, d); auto| |].
  - clear -A. unfold dkeys in *. induction d as [|[k v] d IH]; simpl; [constructor|].
    inversion A; subst. destruct (negb _); simpl; [|apply IH; assumption].
    constructor; [|apply IH; assumption]. intros K. apply H1.
    apply in_map_iff in K. destruct K as [kv [<- K]]. apply filter_In in K. apply in_map, K.
  - intros x Hx. apply B. unfold dkeys in Hx. apply in_map_iff in Hx. destruct Hx as [kv [<- K]].
    apply filter_In in K. apply in_map, K.
Qed.

Lemma directed_add_nodes : forall l g, directed_graph g -> directed_graph (add_nodes_from l g).
Proof.
  intros l; induction l as [|a l IH]; intros g H; simpl; [exact H|]. apply IH, directed_add_node, H.
Qed.

Lemma add_nodes_In : forall l g b, In b (dkeys (add_nodes_from l g)) <-> In b l \/ In b (dkeys g).
Proof.
  intros l; induction l as [|a l IH]; intros g b; simpl; [tauto|].
  rewrite IH, add_node_In. intuition.
Qed.

Lemma edge_add_nodes : forall l g a b, edge (add_nodes_from l g) a b = edge g a b.
Proof.
  intros l; induction l as [|x l IH]; intros g a b; simpl; [reflexivity|]. rewrite IH. apply edge_add_node.
Qed.

Lemma carries_edge : forall g a b y u, directed_graph g ->
    (carries g a b y u <-> edge g a b = Some (y, u)).
Proof.
  intros g a b y u [H1 H2]. unfold carries, edge, succs. split.
  - intros [d [Hd Hb]]. rewrite (In_dget _ eqb_ok a d g H1 Hd). apply (In_dget _ eqb_ok); [|exact Hb].
    apply (H2 a d Hd).
  - intros E. destruct (dget Nat.eqb a g) as [d|] eqn:Ed; [|discriminate].
    apply (dget_In _ eqb_ok) in Ed. apply (dget_In _ eqb_ok) in E. eauto.
Qed.

Lemma edges_In : forall g a b y u, In (a, b, (y, u)) (edges g) <-> carries g a b y u.
Proof.
  intros g a b y u. unfold edges, carries. rewrite in_flat_map. split.
  - intros [[a' d] [Hd H]]. apply in_map_iff in H. destruct H as [[b' c] [E H]]. simpl in *.
    injection E as -> -> ->. eauto.
  - intros [d [Hd H]]. exists (a, d). split; [exact Hd|]. simpl. apply in_map_iff. exists (b, (y, u)). auto.
Qed.

(** ** What every call does to a network *)

Lemma run_all_any : forall (S O A : Type) (step : O -> cmd S A) (I : S -> Prop),
    (forall o s, I s -> I (fst (step o s))) ->
    forall ops s, I s -> I (fst (run_all step ops s)).
Proof.
  intros S O A step I H ops; induction ops as [|o ops IH]; intros s Hs; simpl; [exact Hs|].
  specialize (H o s Hs). destruct (step o s) as [s' [a|e]]; simpl in *; [apply IH, H|exact H].
Qed.

Lemma run_all_any_in : forall (S O A : Type) (step : O -> cmd S A) (I : S -> Prop) (P : O -> Prop),
    (forall o s, P o -> I s -> I (fst (step o s))) ->
    forall ops s, Forall P ops -> I s -> I (fst (run_all step ops s)).
Proof.
  intros S O A step I P H ops; induction ops as [|o ops IH]; intros s Hp Hs; simpl; [exact Hs|].
  inversion Hp; subst. specialize (H o s H2 Hs). destruct (step o s) as [s' [a|e]]; simpl in *; [apply IH; assumption|exact H].
Qed.

Section StepInv.
  Variable I : network -> Prop.
  Variable P : node -> Prop.
  Hypothesis Hfresh : forall c w, I w -> I (set_w_fresh c w).
  Hypothesis Hgive : forall a w, I w -> I (fst (give_id a w)).
  Hypothesis Hmake : forall n w, P n -> I w -> I (fst (make_node n w)).
  Hypothesis Hnodes : forall l w, I w -> I (set_w_graph (add_nodes_from l (w_graph w)) w).
  Hypothesis Hedge : forall a b c w, I w -> I (set_w_graph (add_edge a b c (w_graph w)) w).
  Hypothesis Hdummy : forall s m q, P (mkNode s None m q).

  Lemma inv_include : forall l w, I w -> I (fst (include_nodes l w)).
  Proof.
    intros l w H. unfold include_nodes, cbind.
    pose proof (run_all_any _ _ _ give_id I Hgive l w H) as K.
    destruct (run_all give_id l w) as [w' [[]|e]]; simpl in *; [apply Hnodes, K|exact K].
  Qed.

  Lemma inv_create : forall n w, P n -> I w -> I (fst (create_node n w)).
  Proof.
    intros n w Hn H. unfold create_node, cbind. pose proof (Hmake n w Hn H) as K.
    destruct (make_node n w) as [w1 [a|e]]; simpl in *; [|exact K].
    pose proof (inv_include [a] w1 K) as K2. destruct (include_nodes [a] w1) as [w2 [[]|e]]; exact K2.
  Qed.

  Lemma inv_raw : forall y u a b w, I w -> I (fst (raw_connect y u a b w)).
  Proof.
    intros y u a b w H. unfold raw_connect, cmodify.
    destruct (match edge (w_graph w) a b with Some c => c | None => ([], []) end) as [y0 u0]. simpl. apply Hedge, H.
  Qed.

  Lemma inv_insert : forall y u a b w, I w -> I (fst (insert_intermediary_node y u a b w)).
  Proof.
    intros y u a b w H. unfold insert_intermediary_node.
    destruct (node_at w a) as [na|]; [|exact H]. destruct (node_at w b) as [nb|]; [|exact H].
    destruct y as [|y1 y]; [exact H|]. destruct u as [|u1 u]; [exact H|].
    cbv zeta. destruct (dummy_model _ _ _ _) as [m|e]; [|exact H].
    destruct (n_problem na) as [p|]; [|exact H].
    destruct (new_ocp _ _ _ _) as [q|e]; [|exact H].
    unfold cbind at 1, cmodify. cbv iota beta.
    match goal with |- context [set_w_fresh ?c w] => set (w1 := set_w_fresh c w) end.
    assert (H1 : I w1) by apply Hfresh, H.
    unfold cbind at 1.
    match goal with |- context [create_node ?n w1] => pose proof (inv_create n w1 (Hdummy _ _ _) H1) as H2;
      destruct (create_node n w1) as [w2 [n2|e]] end; simpl in H2; [|exact H2].
    unfold cbind at 1.
    match goal with |- context [raw_connect ?p ?q ?r ?s w2] => pose proof (inv_raw p q r s w2 H2) as H3;
      destruct (raw_connect p q r s w2) as [w3 [[]|e]] end; simpl in H3; [|exact H3].
    apply inv_raw, H3.
  Qed.

  Lemma inv_connect : forall y u a b w, I w -> I (fst (net_connect y u a b w)).
  Proof.
    intros y u a b w H. unfold net_connect, check_var, cbind.
    destruct (has_var y a w) as [[|]|e]; try exact H.
    destruct (has_var u b w) as [[|]|e]; try exact H.
    destruct (w_inter w); [apply inv_insert, H|apply inv_raw, H].
  Qed.

  Definition makes (op : net_op) : Prop := match op with NMake n | NCreate n => P n | _ => True end.

  Lemma inv_step_but : forall op w, makes op -> no_rebuild op ->
      (forall a b g w, I w -> remove_edge a b (w_graph w) = Ok g -> I (set_w_graph g w)) ->
      I w -> I (fst (net_step op w)).
  Proof.
    intros op w Hm Hr Hrem H. destruct op; simpl in *.
    - apply (Hmake n w Hm) in H. exact H.
    - apply inv_include, H.
    - apply (inv_create n w Hm) in H. unfold cbind. destruct (create_node n w) as [w1 [x|e]]; exact H.
    - apply inv_connect, H.
    - unfold remove_connection, cset. destruct (remove_edge a b (w_graph w)) as [g|e] eqn:E; [|exact H].
      simpl. apply (Hrem a b g w H E).
    - contradiction.
  Qed.

  Hypothesis Hremove : forall a b g w, I w -> remove_edge a b (w_graph w) = Ok g -> I (set_w_graph g w).
  Hypothesis Hempty : forall w, I w -> I (set_w_graph [] w).

  Lemma inv_step : forall op w, makes op -> I w -> I (fst (net_step op w)).
  Proof.
    intros op w Hm H. destruct op; try (apply inv_step_but; simpl; auto; fail).
    simpl. unfold insert_intermediary_nodes. apply run_all_any; [|apply Hempty, H].
    intros [[a b] [y u]] w1 H1. apply inv_insert, H1.
  Qed.

  Lemma inv_caught : forall ops w, Forall makes ops -> I w -> I (run_caught net_step ops w).
  Proof.
    intros ops; induction ops as [|op ops IH]; intros w Hm H; [exact H|].
    inversion Hm; subst. unfold run_caught. simpl. apply IH; [assumption|]. apply inv_step; assumption.
  Qed.
End StepInv.

Lemma directed_reached : forall made ops w, built made ops w -> directed_graph (w_graph w).
Proof.
  intros made ops w [inter [fr ->]].
  apply (inv_caught (fun w => directed_graph (w_graph w)) (fun _ => True)).
  - intros c w H; exact H.
  - intros a w H. unfold give_id. destruct (node_at w a) as [n|]; [|exact H]. destruct (n_id n); exact H.
  - intros n w _ H; exact H.
  - intros l w H. apply directed_add_nodes, H.
  - intros a b c w H. apply directed_add_edge, H.
  - auto.
  - intros a b g w H E. apply (directed_remove a b _ g H E).
  - intros w H. apply directed_nil.
  - apply Forall_forall. intros op _. destruct op; exact Logic.I.
  - apply directed_nil.
Qed.

(** ** Identifiers *)

Lemma update_len : forall (A : Type) i (v : A) l, length (update i v l) = length l.
Proof. intros A i v l; revert i; induction l as [|a l IH]; intros [|i]; simpl; auto. Qed.

Lemma update_nth : forall (A : Type) i (v : A) l j,
    nth_error (update i v l) j = if Nat.eqb j i then (if (i <? length l)%nat then Some v else None) else nth_error l j.
Proof.
  intros A i v l; revert i; induction l as [|a l IH]; intros i j.
  - destruct i; simpl; destruct j; simpl; try reflexivity; destruct (Nat.eqb j i); reflexivity.
  - destruct i as [|i]; destruct j as [|j]; try reflexivity. simpl. rewrite IH.
    destruct (Nat.eqb j i); [|reflexivity].
    replace (S i <? S (length l))%nat with (i <? length l)%nat; [reflexivity|].
    destruct (Nat.ltb_spec i (length l)), (Nat.ltb_spec (S i) (S (length l))); auto; lia.
Qed.

Lemma id_of_has : forall w a i, id_of w a = Some i <-> has_id w a i.
Proof.
  intros w a i. unfold id_of, has_id, node_at. destruct (nth_error (w_store w) a) as [n|] eqn:E; split.
  - intros H. eauto.
  - intros [n' [E' H]]. congruence.
  - discriminate.
  - intros [n' [E' H]]. discriminate.
Qed.

Lemma give_id_cases : forall a w w' r, give_id a w = (w', r) ->
    (w' = w) \/
    (exists n, nth_error (w_store w) a = Some n /\ n_id n = None /\ r = Ok tt /\
       w' = set_w_count (w_count w + 1) (set_w_store (update a (set_n_id (w_count w) n) (w_store w)) w)).
Proof.
  intros a w w' r H. unfold give_id, node_at in H. destruct (nth_error (w_store w) a) as [n|] eqn:E; [|injection H as <- <-; auto].
  destruct (n_id n) eqn:E2; injection H as <- <-; [auto|]. right. exists n. auto.
Qed.

Lemma id_of_update : forall w a n b, nth_error (w_store w) a = Some n ->
    id_of (set_w_count (w_count w + 1) (set_w_store (update a (set_n_id (w_count w) n) (w_store w)) w)) b =
    if Nat.eqb b a then Some (w_count w) else id_of w b.
Proof.
  intros w a n b E. unfold id_of, node_at, set_w_count, set_w_store. simpl. rewrite update_nth.
  assert (L : (a < length (w_store w))%nat) by (apply nth_error_Some; congruence).
  apply Nat.ltb_lt in L. rewrite L. destruct (Nat.eqb b a); reflexivity.
Qed.

Definition ids_ok (w : network) : Prop :=
  (0 <= w_count w)%Z /\
  (forall a i, id_of w a = Some i -> (0 <= i < w_count w)%Z) /\
  (forall a b i, id_of w a = Some i -> id_of w b = Some i -> a = b).

Lemma ids_ok_give : forall a w, ids_ok w -> ids_ok (fst (give_id a w)).
Proof.
  intros a w H. destruct (give_id a w) as [w' r] eqn:E. simpl.
  destruct (give_id_cases a w w' r E) as [->|[n [En [Hn [_ ->]]]]]; [exact H|].
  destruct H as [H0 [H1 H2]]. split; [|split].
  - unfold set_w_count, set_w_store; simpl; lia.
  - intros b i. rewrite id_of_update by exact En. cbn [set_w_count w_count].
    destruct (Nat.eqb b a); [intros K; injection K as <-; lia|]. intros K. apply H1 in K. lia.
  - intros b c i. rewrite !id_of_update by exact En.
    destruct (Nat.eqb_spec b a), (Nat.eqb_spec c a); try congruence; intros Kb Kc.
    + injection Kb as <-. apply H1 in Kc. lia.
    + injection Kc as <-. apply H1 in Kb. lia.
    + apply (H2 b c i); assumption.
Qed.

Lemma id_of_append : forall w n a, n_id n = None ->
    id_of (set_w_store (w_store w ++ [n]) w) a = id_of w a.
Proof.
  intros w n a Hn. unfold id_of, node_at, set_w_store; simpl.
  destruct (Nat.lt_ge_cases a (length (w_store w))) as [L|L].
  - rewrite nth_error_app1 by exact L. reflexivity.
  - rewrite nth_error_app2 by exact L. rewrite (proj2 (nth_error_None (w_store w) a) L).
    destruct (a - length (w_store w))%nat as [|k]; simpl; [exact Hn|]. destruct k; reflexivity.
Qed.

Lemma ids_ok_make : forall n w, no_own_id n -> ids_ok w -> ids_ok (fst (make_node n w)).
Proof.
  intros n w Hn [H0 [H1 H2]]. unfold make_node. simpl. split; [exact H0|split].
  - intros a i. rewrite id_of_append by exact Hn. apply H1.
  - intros a b i. rewrite !id_of_append by exact Hn. apply H2.
Qed.

Lemma ids_ok_reached : forall made ops w, no_own_ids made ops -> built made ops w -> ids_ok w.
Proof.
  intros made ops w [Hmade Hops] [inter [fr ->]].
  apply (inv_caught ids_ok no_own_id).
  - intros c w H; exact H.
  - apply ids_ok_give.
  - apply ids_ok_make.
  - intros l w H; exact H.
  - intros a b c w H; exact H.
  - reflexivity.
  - intros a b g w H E; exact H.
  - intros w H; exact H.
  - revert Hops. apply Forall_impl. intros op; destruct op; auto.
  - assert (N : forall a i, id_of (new_network made inter fr) a = Some i -> False).
    { intros a i K. apply id_of_has in K. destruct K as [n [E K]]. simpl in E. apply nth_error_In in E.
      rewrite Forall_forall in Hmade. apply Hmade in E. unfold no_own_id in E. congruence. }
    split; [simpl; lia|]. split; [intros a i K|intros a b i K]; destruct (N _ _ K).
Qed.

Lemma find_first : forall (A : Type) (f : A -> bool) l a, find f l = Some a ->
    exists l1 l2, l = l1 ++ a :: l2 /\ f a = true /\ (forall b, In b l1 -> f b = false).
Proof.
  intros A f l; induction l as [|x l IH]; intros a H; simpl in H; [discriminate|].
  destruct (f x) eqn:E.
  - injection H as <-. exists [], l. split; [reflexivity|]. split; [exact E|intros b []].
  - destruct (IH a H) as [l1 [l2 [-> [Ha Hb]]]]. exists (x :: l1), l2. split; [reflexivity|].
    split; [exact Ha|]. intros b [<-|K]; auto.
Qed.

Lemma id_is_iff : forall w i a, id_is w i a = true <-> has_id w a i.
Proof.
  intros w i a. rewrite <- id_of_has. unfold id_is, id_of. destruct (node_at w a) as [n|]; [|split; discriminate].
  destruct (n_id n) as [j|]; [|split; discriminate]. rewrite Z.eqb_eq. split; congruence.
Qed.

Lemma getitem_found : forall w i a, getitem (KInt i) w = Ok a -> in_network w a /\ has_id w a i.
Proof.
  intros w i a H. unfold getitem, get_node_by_id in H. destruct (find _ _) as [b|] eqn:E; [|discriminate].
  injection H as ->. apply find_some in E. destruct E as [E1 E2]. split; [exact E1|apply id_is_iff, E2].
Qed.

Lemma getitem_missing : forall w i, getitem (KInt i) w = Raise IndexError <->
    (forall a, in_network w a -> ~ has_id w a i).
Proof.
  intros w i. unfold getitem, get_node_by_id. destruct (find _ _) as [b|] eqn:E; split.
  - discriminate.
  - intros H. apply find_some in E. destruct E as [E1 E2]. exfalso. apply (H b E1), id_is_iff, E2.
  - intros _ a Ha K. apply id_is_iff in K. apply (find_none _ _ E) in Ha. congruence.
  - reflexivity.
Qed.

Lemma getitem_iff : forall w, ids_ok w -> forall i a,
    getitem (KInt i) w = Ok a <-> in_network w a /\ has_id w a i.
Proof.
  intros w [_ [_ H]] i a. split; [apply getitem_found|]. intros [Ha Hi].
  unfold getitem, get_node_by_id. destruct (find _ _) as [b|] eqn:E.
  - apply find_some in E. destruct E as [_ E]. apply id_is_iff in E. f_equal.
    apply (H b a i); apply id_of_has; assumption.
  - exfalso. apply (find_none _ _ E) in Ha. apply id_is_iff in Hi. congruence.
Qed.

(** ** Iteration *)

Lemma iterate_from_nth : forall fuel i w k a,
    nth_error (iterate_from fuel i w) k = Some a -> getitem (KInt (i + Z.of_nat k)) w = Ok a.
Proof.
  intros fuel; induction fuel as [|fuel IH]; intros i w k a H; simpl in H; [destruct k; discriminate|].
  destruct (match get_node_by_id i w with Some a => Ok a | None => Raise IndexError end) as [b|e] eqn:E; [|destruct k; discriminate].
  destruct k as [|k]; simpl in H.
  - injection H as <-. rewrite Z.add_0_r. exact E.
  - apply IH in H. rewrite Nat2Z.inj_succ. replace (i + Z.succ (Z.of_nat k))%Z with (i + 1 + Z.of_nat k)%Z by lia. exact H.
Qed.

Lemma iterate_from_len : forall fuel i w, (length (iterate_from fuel i w) <= fuel)%nat.
Proof.
  intros fuel; induction fuel as [|fuel IH]; intros i w; simpl; [lia|].
  destruct (match get_node_by_id i w with Some a => Ok a | None => Raise IndexError end); simpl; [|lia].
  specialize (IH (i + 1)%Z w). lia.
Qed.

Lemma iterate_from_stop : forall fuel i w, (length (iterate_from fuel i w) < fuel)%nat ->
    getitem (KInt (i + Z.of_nat (length (iterate_from fuel i w)))) w = Raise IndexError.
Proof.
  intros fuel; induction fuel as [|fuel IH]; intros i w H; simpl in *; [lia|].
  destruct (get_node_by_id i w) as [b|] eqn:E; simpl in *.
  - assert (L : (length (iterate_from fuel (i + 1) w) < fuel)%nat) by lia.
    specialize (IH _ _ L). unfold getitem in IH.
    replace (i + Z.pos (Pos.of_succ_nat (length (iterate_from fuel (i + 1) w))))%Z
      with (i + 1 + Z.of_nat (length (iterate_from fuel (i + 1) w)))%Z by lia. exact IH.
  - rewrite Z.add_0_r, E. reflexivity.
Qed.

Lemma iterate_nth : forall w k a, nth_error (iterate w) k = Some a -> getitem (KInt (Z.of_nat k)) w = Ok a.
Proof. intros w k a H. apply iterate_from_nth in H. exact H. Qed.

Lemma iterate_in : forall w a, In a (iterate w) -> in_network w a.
Proof.
  intros w a H. apply In_nth_error in H. destruct H as [k H]. apply iterate_nth in H. apply getitem_found in H. tauto.
Qed.

Lemma iterate_NoDup : forall w, NoDup (iterate w).
Proof.
  intros w. apply NoDup_nth_error. intros i j Hi E.
  destruct (nth_error (iterate w) i) as [a|] eqn:Ei; [|apply nth_error_None in Ei; lia].
  symmetry in E. apply iterate_nth in Ei. apply iterate_nth in E.
  apply getitem_found in Ei. apply getitem_found in E. destruct Ei as [_ Ei]. destruct E as [_ E].
  apply id_of_has in Ei. apply id_of_has in E. rewrite Ei in E. injection E. lia.
Qed.

Lemma iterate_complete : forall w,
    getitem (KInt (Z.of_nat (length (iterate w)))) w = Raise IndexError.
Proof.
  intros w. pose proof (iterate_from_len (length (w_graph w)) 0 w) as L. fold (iterate w) in L.
  destruct (Nat.lt_ge_cases (length (iterate w)) (length (w_graph w))) as [H|H].
  - apply (iterate_from_stop (length (w_graph w)) 0 w H).
  - apply getitem_missing. intros a Ha Hi.
    assert (In a (iterate w)) as K.
    { refine (NoDup_length_incl (l' := map fst (w_graph w)) (iterate_NoDup w) _ _ a Ha).
      - rewrite map_length. exact H.
      - intros b Hb. apply iterate_in in Hb. exact Hb. }
    apply In_nth_error in K. destruct K as [k K].
    assert (Lk : (k < length (iterate w))%nat) by (apply nth_error_Some; congruence).
    apply iterate_nth in K. apply getitem_found in K. destruct K as [_ K].
    apply id_of_has in K. apply id_of_has in Hi. rewrite Hi in K. injection K. lia.
Qed.

Definition ids_differ (w : network) : Prop :=
  forall a b i, in_network w a -> in_network w b -> has_id w a i -> has_id w b i -> a = b.

Lemma NoDup_map_on : forall (A B : Type) (f : A -> B) l,
    NoDup l -> (forall a b, In a l -> In b l -> f a = f b -> a = b) -> NoDup (map f l).
Proof.
  intros A B f l H; induction H as [|a l Ha Hl IH]; intros Hf; simpl; constructor.
  - intros K. apply in_map_iff in K. destruct K as [b [E Kb]]. apply Ha.
    rewrite (Hf a b); [exact Kb|left; reflexivity|right; exact Kb|auto].
  - apply IH. intros b c Hb Hc. apply Hf; right; assumption.
Qed.

Lemma visits_all_iff : forall w, directed_graph (w_graph w) -> ids_differ w ->
    ((forall a, in_network w a -> In a (iterate w)) <->
     (forall a, in_network w a -> exists i, has_id w a i /\ (0 <= i < Z.of_nat (length (w_graph w)))%Z)).
Proof.
  intros w [Hnd _] Hd. split.
  - intros H a Ha. apply H in Ha. apply In_nth_error in Ha. destruct Ha as [k Hk].
    assert (L : (k < length (iterate w))%nat) by (apply nth_error_Some; congruence).
    pose proof (iterate_from_len (length (w_graph w)) 0 w) as L2. fold (iterate w) in L2.
    apply iterate_nth in Hk. apply getitem_found in Hk. exists (Z.of_nat k). split; [tauto|lia].
  - intros H a Ha.
    destruct (Nat.lt_ge_cases (length (iterate w)) (length (w_graph w))) as [L|L].
    + exfalso. pose proof (iterate_complete w) as C. rewrite getitem_missing in C.
      set (f := fun a => match id_of w a with Some i => Z.to_nat i | None => O end).
      assert (N : NoDup (length (iterate w) :: map f (map fst (w_graph w)))).
      { constructor.
        - intros K. apply in_map_iff in K. destruct K as [b [E Kb]]. destruct (H b Kb) as [i [Hi Hr]].
          apply (C b Kb). pose proof Hi as Hi'. apply id_of_has in Hi'. unfold f in E. rewrite Hi' in E.
          rewrite <- E. rewrite Z2Nat.id by lia. exact Hi.
        - apply NoDup_map_on; [exact Hnd|]. intros b c Hb Hc E.
          destruct (H b Hb) as [i [Hi Hri]]. destruct (H c Hc) as [j [Hj Hrj]].
          pose proof Hi as Hi'. pose proof Hj as Hj'. apply id_of_has in Hi'. apply id_of_has in Hj'.
          unfold f in E. rewrite Hi', Hj' in E. apply Z2Nat.inj in E; [|lia|lia]. subst j.
          apply (Hd b c i); assumption. }
      assert (Inc : incl (length (iterate w) :: map f (map fst (w_graph w))) (seq 0 (length (w_graph w)))).
      { intros x [<-|K]; apply in_seq; [lia|]. apply in_map_iff in K. destruct K as [b [<- Kb]].
        destruct (H b Kb) as [i [Hi Hr]]. apply id_of_has in Hi. unfold f. rewrite Hi. lia. }
      apply (NoDup_incl_length N) in Inc. simpl in Inc. rewrite !map_length, seq_length in Inc. lia.
    + refine (NoDup_length_incl (l' := map fst (w_graph w)) (iterate_NoDup w) _ _ a Ha).
      * rewrite map_length. exact L.
      * intros b Hb. apply iterate_in in Hb. exact Hb.
Qed.

(** Histories of accepted calls: the identifiers given are 0 .. count-1, all in use. *)
Definition ids_used (l : list addr) (w : network) : Prop :=
  ids_ok w /\ (forall a i, id_of w a = Some i -> in_network w a \/ In a l) /\
  (forall i, (0 <= i < w_count w)%Z -> exists a, id_of w a = Some i).

Lemma ids_used_give : forall l a w, In a l -> ids_used l w -> ids_used l (fst (give_id a w)).
Proof.
  intros l a w Ha [H1 [H2 H3]]. split; [apply ids_ok_give, H1|].
  destruct (give_id a w) as [w' r] eqn:E. simpl.
  destruct (give_id_cases a w w' r E) as [->|[n [En [Hn [_ ->]]]]]; [split; assumption|].
  split.
  - intros b i. rewrite id_of_update by exact En. destruct (Nat.eqb_spec b a) as [->|]; [auto|]. apply H2.
  - intros i Hi. cbn [set_w_count w_count] in Hi.
    destruct (Z.eq_dec i (w_count w)) as [->|Hne].
    + exists a. rewrite id_of_update by exact En. rewrite Nat.eqb_refl. reflexivity.
    + destruct (H3 i) as [b Hb]; [lia|]. exists b. rewrite id_of_update by exact En.
      destruct (Nat.eqb_spec b a) as [->|]; [|exact Hb].
      unfold id_of, node_at in Hb. rewrite En, Hn in Hb. discriminate.
Qed.

Lemma ids_used_more : forall w g, (forall a, In a (dkeys (w_graph w)) -> In a (dkeys g)) ->
    ids_used [] w -> ids_used [] (set_w_graph g w).
Proof.
  intros w g Hg [H1 [H2 H3]]. split; [exact H1|]. split; [|exact H3].
  intros a i K. destruct (H2 a i K) as [K2|[]]. left. apply Hg, K2.
Qed.

Lemma ids_used_include : forall l w w', ids_used [] w -> include_nodes l w = (w', Ok tt) -> ids_used [] w'.
Proof.
  intros l w w' H E. unfold include_nodes in E. apply cbind_ok in E. destruct E as [w1 [[] [E1 E2]]].
  assert (H0 : ids_used l w).
  { destruct H as [H1 [H2 H3]]. split; [exact H1|]. split; [|exact H3]. intros a i K. destruct (H2 a i K) as [|[]]; auto. }
  assert (H1 : ids_used l w1).
  { change w1 with (fst (w1, Ok tt : res unit)). rewrite <- E1.
    apply run_all_any_in with (P := fun a => In a l); [|apply Forall_forall; auto|exact H0].
    intros a s Ha. apply ids_used_give, Ha. }
  unfold cmodify in E2. injection E2 as <-. destruct H1 as [A [B C]]. split; [exact A|]. split; [|exact C].
  intros a i K. left. unfold in_network. simpl. apply add_nodes_In. destruct (B a i K) as [D|D]; [right|left]; exact D.
Qed.

Lemma include_total : forall l w, (forall a, In a l -> (a < length (w_store w))%nat) ->
    exists w', include_nodes l w = (w', Ok tt) /\ length (w_store w') = length (w_store w).
Proof.
  intros l w Hl.
  assert (K : exists w', run_all give_id l w = (w', Ok tt) /\ length (w_store w') = length (w_store w)).
  { revert w Hl. induction l as [|a l IH]; intros w Hl; [simpl; eauto|]. cbn [run_all].
    destruct (nth_error (w_store w) a) as [n|] eqn:En;
      [|apply nth_error_None in En; specialize (Hl a (or_introl eq_refl)); lia].
    unfold give_id at 1. unfold node_at. rewrite En. destruct (n_id n).
    - apply IH. intros b Hb. apply Hl. right. exact Hb.
    - match goal with |- context [run_all give_id l ?W] => destruct (IH W) as [w' [E L]] end.
      + intros b Hb. simpl. rewrite update_len. apply Hl. right. exact Hb.
      + exists w'. split; [exact E|]. rewrite L. simpl. apply update_len. }
  destruct K as [w' [E L]]. unfold include_nodes, cbind. rewrite E. eexists. split; [reflexivity|]. exact L.
Qed.

(** [create_node] cannot fail. *)
Lemma create_node_run : forall n w,
    exists w', create_node n w = (w', Ok (length (w_store w))).
Proof.
  intros n w. unfold create_node, make_node. unfold cbind at 1.
  match goal with |- context [include_nodes ?l] => set (l0 := l) end.
  destruct (include_total l0 (set_w_store (w_store w ++ [n]) w)) as [w' [E _]].
  - intros a [<-|[]]. simpl. rewrite app_length. simpl. lia.
  - exists w'. unfold cbind. rewrite E. reflexivity.
Qed.

Lemma ids_used_make : forall n w, no_own_id n -> ids_used [] w -> ids_used [] (fst (make_node n w)).
Proof.
  intros n w Hn [H1 [H2 H3]]. split; [apply ids_ok_make; assumption|]. unfold make_node. simpl. split.
  - intros a i. rewrite id_of_append by exact Hn. apply H2.
  - intros i Hi. destruct (H3 i Hi) as [a Ha]. exists a. rewrite id_of_append by exact Hn. exact Ha.
Qed.

Lemma ids_used_create : forall n w, no_own_id n -> ids_used [] w -> ids_used [] (fst (create_node n w)).
Proof.
  intros n w Hn H. pose proof (ids_used_make n w Hn H) as K. unfold create_node.
  unfold make_node in *. unfold cbind at 1. simpl in K.
  match goal with |- context [include_nodes ?l] => set (l0 := l) end.
  destruct (include_total l0 (set_w_store (w_store w ++ [n]) w)) as [w' [E _]].
  { intros a [<-|[]]. simpl. rewrite app_length. simpl. lia. }
  unfold cbind. rewrite E. apply (ids_used_include _ _ _ K E).
Qed.

Lemma ids_used_raw : forall y u a b w, ids_used [] w -> ids_used [] (fst (raw_connect y u a b w)).
Proof.
  intros y u a b w H. unfold raw_connect, cmodify.
  destruct (match edge (w_graph w) a b with Some c => c | None => ([], []) end) as [y0 u0]. simpl.
  apply ids_used_more; [|exact H]. intros x Hx. rewrite add_edge_keys. apply add_node_In. right. apply add_node_In. right. exact Hx.
Qed.

Lemma ids_used_insert : forall y u a b w, ids_used [] w -> ids_used [] (fst (insert_intermediary_node y u a b w)).
Proof.
  intros y u a b w H. unfold insert_intermediary_node.
  destruct (node_at w a) as [na|]; [|exact H]. destruct (node_at w b) as [nb|]; [|exact H].
  destruct y as [|y1 y]; [exact H|]. destruct u as [|u1 u]; [exact H|].
  cbv zeta. destruct (dummy_model _ _ _ _) as [m|e]; [|exact H].
  destruct (n_problem na) as [p|]; [|exact H].
  destruct (new_ocp _ _ _ _) as [q|e]; [|exact H].
  unfold cbind at 1, cmodify. cbv iota beta.
  match goal with |- context [set_w_fresh ?c w] => set (w1 := set_w_fresh c w) end.
  assert (H1 : ids_used [] w1) by exact H.
  unfold cbind at 1.
  match goal with |- context [create_node ?n w1] => pose proof (ids_used_create n w1 eq_refl H1) as H2;
    destruct (create_node n w1) as [w2 [n2|e]] end; simpl in H2; [|exact H2].
  unfold cbind at 1.
  match goal with |- context [raw_connect ?p ?q ?r ?s w2] => pose proof (ids_used_raw p q r s w2 H2) as H3;
    destruct (raw_connect p q r s w2) as [w3 [[]|e]] end; simpl in H3; [|exact H3].
  apply ids_used_raw, H3.
Qed.

Lemma ids_used_step : forall op w w' r, op_no_own_id op -> no_rebuild op ->
    ids_used [] w -> net_step op w = (w', Ok r) -> ids_used [] w'.
Proof.
  intros op w w' r Ho Hr H E. destruct op; simpl in *.
  - pose proof (ids_used_make n w Ho H) as K. unfold cbind, make_node in *. simpl in *. injection E as <- _. exact K.
  - destruct r. apply (ids_used_include _ _ _ H E).
  - pose proof (ids_used_create n w Ho H) as K. unfold cbind in E. destruct (create_node n w) as [w1 [x|e]]; [|discriminate].
    injection E as <- _. exact K.
  - unfold net_connect, check_var, cbind in E.
    destruct (has_var y a w) as [[|]|e]; try discriminate.
    destruct (has_var u b w) as [[|]|e]; try discriminate.
    destruct (w_inter w).
    + pose proof (ids_used_insert y u a b w H) as K. rewrite E in K. exact K.
    + pose proof (ids_used_raw y u a b w H) as K. rewrite E in K. exact K.
  - unfold remove_connection, cset in E. destruct (remove_edge a b (w_graph w)) as [g|e] eqn:Eg; [|discriminate].
    injection E as <- _. apply ids_used_more; [|exact H]. intros x Hx. unfold remove_edge in Eg.
    destruct (dget Nat.eqb a (w_graph w)) as [d|]; [|discriminate]. destruct (ddel Nat.eqb b d) as [d'|]; [|discriminate].
    injection Eg as <-. rewrite dset_keys. match goal with |- context [in_dec ?e ?x ?l] => destruct (in_dec e x l) end; [exact Hx|].
    apply in_app_iff. left. exact Hx.
  - contradiction.
Qed.

Lemma ids_used_reached : forall made ops w, no_own_ids made ops -> Forall no_rebuild ops ->
    built_by made ops w -> ids_used [] w.
Proof.
  intros made ops w [Hmade Hops] Hr [inter [fr E]].
  assert (H0 : ids_used [] (new_network made inter fr)).
  { split; [|split].
    - apply (ids_ok_reached made []); [split; [exact Hmade|constructor]|]. exists inter, fr. reflexivity.
    - intros a i K. exfalso. apply id_of_has in K. destruct K as [n [En K]]. simpl in En. apply nth_error_In in En.
      rewrite Forall_forall in Hmade. apply Hmade in En. unfold no_own_id in En. congruence.
    - simpl. intros i Hi. lia. }
  revert H0 E. generalize (new_network made inter fr) as w0. induction ops as [|op ops IH]; intros w0 H0 E; simpl in E.
  - injection E as <-. exact H0.
  - inversion Hops; subst. inversion Hr; subst. destruct (net_step op w0) as [w1 [r|e]] eqn:E1; [|discriminate].
    apply (IH H3 H5 w1); [|exact E]. apply (ids_used_step op w0 w1 r); assumption.
Qed.

Lemma built_by_built : forall made ops w, built_by made ops w -> built made ops w.
Proof. intros made ops w [inter [fr E]]. exists inter, fr. apply run_all_caught in E. exact E. Qed.

Lemma all_visited : forall made ops w, no_own_ids made ops -> Forall no_rebuild ops ->
    built_by made ops w -> (forall a, in_network w a -> exists i, has_id w a i) ->
    Permutation (iterate w) (map fst (w_graph w)).
Proof.
  intros made ops w Hn Hr Hb Hall.
  pose proof (ids_used_reached _ _ _ Hn Hr Hb) as [[U0 [U1 U2]] [U3 U4]].
  pose proof (directed_reached _ _ _ (built_by_built _ _ _ Hb)) as D.
  apply NoDup_Permutation; [apply iterate_NoDup|apply D|]. intros a. split; [apply iterate_in|]. revert a.
  apply visits_all_iff; [exact D| |].
  - intros a b i _ _ Ha Hb'. apply (U2 a b i); apply id_of_has; assumption.
  - assert (C : w_count w = Z.of_nat (length (w_graph w))).
    { apply Z.le_antisymm.
      - (* every identifier below the count belongs to a node *)
        destruct (Z.le_gt_cases (w_count w) (Z.of_nat (length (w_graph w)))) as [|G]; [assumption|exfalso].
        set (n := length (w_graph w)).
        set (f := fun a => match id_of w a with Some i => Z.to_nat i | None => O end).
        assert (Inc : incl (seq 0 (S n)) (map f (map fst (w_graph w)))).
        { intros k Hk. apply in_seq in Hk. destruct (U4 (Z.of_nat k)) as [a Ha]; [unfold n in Hk; lia|].
          apply in_map_iff. exists a. split; [unfold f; rewrite Ha; apply Nat2Z.id|].
          destruct (U3 a _ Ha) as [K|[]]. exact K. }
        apply (NoDup_incl_length (seq_NoDup _ _)) in Inc. rewrite seq_length, !map_length in Inc. unfold n in Inc. lia.
      - destruct (Z.le_gt_cases (Z.of_nat (length (w_graph w))) (w_count w)) as [|G]; [assumption|exfalso].
        set (f := fun a => match id_of w a with Some i => Z.to_nat i | None => O end).
        assert (Inc : incl (map f (map fst (w_graph w))) (seq 0 (Z.to_nat (w_count w)))).
        { intros k Hk. apply in_map_iff in Hk. destruct Hk as [a [<- Ha]]. destruct (Hall a Ha) as [i Hi].
          apply id_of_has in Hi. unfold f. rewrite Hi. apply U1 in Hi. apply in_seq. lia. }
        assert (N : NoDup (map f (map fst (w_graph w)))).
        { apply NoDup_map_on; [apply D|]. intros a b Ha Hb' E.
          destruct (Hall a Ha) as [i Hi]. destruct (Hall b Hb') as [j Hj].
          apply id_of_has in Hi. apply id_of_has in Hj. unfold f in E. rewrite Hi, Hj in E.
          pose proof (U1 _ _ Hi). pose proof (U1 _ _ Hj). apply Z2Nat.inj in E; [|lia|lia]. subst j. apply (U2 a b i); assumption. }
        apply (NoDup_incl_length N) in Inc. rewrite seq_length, !map_length in Inc. lia. }
    intros a Ha. destruct (Hall a Ha) as [i Hi]. exists i. split; [exact Hi|]. apply id_of_has in Hi. apply U1 in Hi. lia.
Qed.

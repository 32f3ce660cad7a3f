From Coq Require Import String Permutation Sorted.
From Verif Require Import Base BaseProofs ExprModel SysModel SysSpec SysProofs SimModel DataModel OcpModel OcpSpec
  NetModel NetSpec NetProofs NetColorProofs NetInterProofs NetAssemblyProofs.
Local Open Scope list_scope.

Lemma give_all : forall l w w', run_all give_id l w = (w', Ok tt) ->
    w_graph w' = w_graph w /\ (forall a, In a l -> exists i, has_id w' a i) /\
    (forall a i, has_id w a i -> has_id w' a i) /\
    (forall a, ~ In a l -> nth_error (w_store w') a = nth_error (w_store w) a).
Proof.
  induction l as [|a l IH]; intros w w' H.
  { injection H as <-. split; [reflexivity|]. split; [intros a []|]. split; [tauto|reflexivity]. }
  cbn in H. unfold cbind in H. destruct (give_id a w) as [w1 r] eqn:E.
  destruct r as [[]|]; [|discriminate H].
  assert (K : w_graph w1 = w_graph w /\ (exists i, has_id w1 a i) /\ (forall b i, has_id w b i -> has_id w1 b i) /\
              (forall b, b <> a -> nth_error (w_store w1) b = nth_error (w_store w) b)).
  { unfold give_id, node_at in E. destruct (nth_error (w_store w) a) as [n|] eqn:En; [|discriminate E].
    destruct (n_id n) as [i|] eqn:Ei.
    - injection E as <-. split; [reflexivity|]. split; [exists i, n; split; assumption|]. split; [tauto|reflexivity].
    - injection E as <-. split; [reflexivity|]. cbn.
      assert (Hl : (a < length (w_store w))%nat) by (apply nth_error_Some; rewrite En; discriminate).
      split; [|split].
      + exists (w_count w). eexists. cbn. rewrite update_nth, Nat.eqb_refl.
        apply Nat.ltb_lt in Hl. unfold addr in *. rewrite Hl. split; reflexivity.
      + intros b i [n' [Hn Hi]]. exists n'. cbn. rewrite update_nth. destruct (Nat.eqb_spec b a) as [->|Hd].
        * exfalso. rewrite En in Hn. injection Hn as <-. rewrite Ei in Hi. discriminate Hi.
        * split; assumption.
      + intros b Hd. rewrite update_nth. apply Nat.eqb_neq in Hd. rewrite Hd. reflexivity. }
  destruct K as [K1 [K2 [K3 K4]]]. destruct (IH _ _ H) as [I1 [I2 [I3 I4]]].
  split; [congruence|]. split; [|split].
  - intros b [<-|Hb]; [|exact (I2 b Hb)]. destruct K2 as [i Hi]. exists i. exact (I3 _ _ Hi).
  - intros b i Hb. apply I3, K3, Hb.
  - intros b Hb. rewrite I4; [|intros X; apply Hb; right; exact X]. apply K4. intros ->. apply Hb. left; reflexivity.
Qed.

Lemma carries_add_nodes : forall l g a b y u, carries (add_nodes_from l g) a b y u <-> carries g a b y u.
Proof.
  assert (K : forall x g a b y u, carries (add_node x g) a b y u <-> carries g a b y u).
  { intros x g a b y u. unfold add_node. destruct (dhas Nat.eqb x g); [tauto|]. unfold carries. split.
    - intros [d [H1 H2]]. apply in_app_or in H1. destruct H1 as [H1|[H1|[]]].
      + exists d; tauto.
      + injection H1 as _ <-. destruct H2.
    - intros [d [H1 H2]]. exists d. split; [apply in_or_app; left; exact H1|exact H2]. }
  induction l as [|x l IH]; intros g a b y u; [tauto|]. cbn. unfold add_nodes_from in IH. rewrite IH. apply K.
Qed.

Lemma included : forall l w w', include_nodes l w = (w', Ok tt) ->
    (forall a, in_network w' a <-> in_network w a \/ In a l) /\
    (forall a, In a l -> exists i, has_id w' a i) /\
    (forall a i, has_id w a i -> has_id w' a i) /\
    (forall a, ~ In a l -> nth_error (w_store w') a = nth_error (w_store w) a) /\
    (forall a b y u, carries (w_graph w') a b y u <-> carries (w_graph w) a b y u).
Proof.
  intros l w w' H. unfold include_nodes, cbind in H. destruct (run_all give_id l w) as [w1 [[]|e]] eqn:E; [|discriminate H].
  cbn in H. injection H as <-. destruct (give_all _ _ _ E) as [G [A [B C]]].
  split; [|split; [exact A|split; [exact B|split; [exact C|]]]].
  - intros a. unfold in_network. cbn. pose proof (add_nodes_In l (w_graph w1) a) as K. rewrite G in *.
    unfold dkeys in K. tauto.
  - intros a b y u. cbn. rewrite carries_add_nodes, G. reflexivity.
Qed.

Lemma lookup_by_id : forall made ops w, no_own_ids made ops -> built made ops w ->
    (forall a b i, has_id w a i -> has_id w b i -> a = b) /\
    (forall i a, getitem (KInt i) w = Ok a <-> in_network w a /\ has_id w a i).
Proof.
  intros made ops w H1 H2. pose proof (ids_ok_reached made ops w H1 H2) as K. split.
  - intros a b i Ha Hb. destruct K as [_ [_ K]]. apply (K a b i); apply id_of_has; assumption.
  - intros i a. apply getitem_iff; exact K.
Qed.

Lemma name_is_iff : forall w s a, name_is w s a = true <-> has_name w a s.
Proof.
  intros w s a. unfold name_is, has_name, node_at. destruct (nth_error (w_store w) a) as [n|].
  - destruct (n_name n) as [s'|] eqn:E.
    + rewrite String.eqb_eq. split.
      * intros ->. exists n. split; [reflexivity|exact E].
      * intros [n' [H1 H2]]. injection H1 as <-. congruence.
    + split; [discriminate|]. intros [n' [H1 H2]]. injection H1 as <-. congruence.
  - split; [discriminate|]. intros [n' [H1 _]]. discriminate H1.
Qed.
Lemma find_iff : forall (A : Type) (f : A -> bool) l a,
    find f l = Some a <-> exists l1 l2, l = l1 ++ a :: l2 /\ f a = true /\ (forall b, In b l1 -> f b = false).
Proof.
  intros A f l a. split; [apply find_first|]. intros [l1 [l2 [-> [Ha Hb]]]].
  induction l1 as [|b l1 IH]; cbn; [rewrite Ha; reflexivity|].
  rewrite (Hb b (or_introl eq_refl)). apply IH. intros c Hc. apply Hb. right; exact Hc.
Qed.
Lemma lookup_by_name : forall w s,
    (forall a, getitem (KStr s) w = Ok a <->
       exists before after, map fst (w_graph w) = before ++ a :: after /\ has_name w a s /\
         forall b, In b before -> ~ has_name w b s) /\
    (getitem (KStr s) w = Raise KeyError <-> (forall a, in_network w a -> ~ has_name w a s)).
Proof.
  intros w s. cbn. unfold get_node_by_name. split.
  - intros a. pose proof (find_iff _ (name_is w s) (dkeys (w_graph w)) a) as K. split.
    + intros H. destruct (find (name_is w s) (dkeys (w_graph w))) as [a'|] eqn:E; [|discriminate H].
      injection H as H. subst a'. destruct (proj1 K eq_refl) as [l1 [l2 [E1 [E2 E3]]]].
      exists l1, l2. split; [exact E1|]. split; [apply name_is_iff; exact E2|].
      intros b Hb Hn. apply name_is_iff in Hn. rewrite (E3 b Hb) in Hn. discriminate Hn.
    + intros [l1 [l2 [E1 [E2 E3]]]].
      assert (F : find (name_is w s) (dkeys (w_graph w)) = Some a).
      { apply K. exists l1, l2. split; [exact E1|]. split; [apply name_is_iff; exact E2|].
        intros b Hb. destruct (name_is w s b) eqn:Eb; [|reflexivity].
        apply name_is_iff in Eb. destruct (E3 b Hb Eb). }
      rewrite F. reflexivity.
  - split.
    + intros H a Ha Hn. destruct (find (name_is w s) (dkeys (w_graph w))) as [a'|] eqn:E; [discriminate H|].
      apply name_is_iff in Hn. pose proof (List.find_none _ _ E a Ha) as X. cbn in X. unfold addr in *. congruence.
    + intros H. destruct (find (name_is w s) (dkeys (w_graph w))) as [a'|] eqn:E; [|reflexivity].
      apply find_some in E. destruct E as [E1 E2]. apply name_is_iff in E2. destruct (H a' E1 E2).
Qed.
Lemma iteration : forall w,
    (forall k a, nth_error (iterate w) k = Some a -> getitem (KInt (Z.of_nat k)) w = Ok a) /\
    getitem (KInt (Z.of_nat (length (iterate w)))) w = Raise IndexError /\
    NoDup (iterate w) /\ (forall a, In a (iterate w) -> in_network w a).
Proof.
  intros w. split; [apply iterate_nth|]. split; [apply iterate_complete|]. split; [apply iterate_NoDup|].
  apply iterate_in.
Qed.
Lemma visits_all : forall made ops w, built made ops w ->
    (forall a b i, in_network w a -> in_network w b -> has_id w a i -> has_id w b i -> a = b) ->
    ((forall a, in_network w a -> In a (iterate w)) <->
     (forall a, in_network w a ->
        exists i, has_id w a i /\ (0 <= i < Z.of_nat (length (w_graph w)))%Z)).
Proof.
  intros made ops w H K. apply visits_all_iff; [exact (directed_reached made ops w H)|exact K].
Qed.
Lemma models_listing : forall w ms, models w = Ok ms ->
    exists l, listing w l /\
      ms = map (fun a => match nth_error (w_store w) a with Some n => n_model n | None => None end) l.
Proof.
  intros w ms H. unfold models in H. destruct (sorted_nodes w) as [l|] eqn:E; [|discriminate H].
  injection H as <-. exists l. split; [apply sorted_listing; exact E|reflexivity].
Qed.
Lemma groups_of_built : forall made ops w, built made ops w ->
    let groups := get_map_coloring_groups (w_graph w) in
    Permutation (concat groups) (map fst (w_graph w)) /\ NoDup (concat groups) /\
    Forall (fun group => group <> []) groups /\
    (forall group a b, In group groups -> In a group -> In b group -> a <> b ->
       ~ linked (w_graph w) a b).
Proof. intros made ops w H. apply groups_ok. exact (directed_reached made ops w H). Qed.
Lemma blocks_of_built : forall made ops w, built made ops w ->
    let blocks := default_blocks (w_graph w) in
    NoDup (map fst blocks) /\ NoDup (concat (map snd blocks)) /\
    (forall a, In a (concat (map snd blocks)) -> in_network w a) /\
    Forall (fun block => block <> []) (map snd blocks).
Proof. intros made ops w H. apply default_blocks_ok. exact (directed_reached made ops w H). Qed.
Lemma blocks_two_way : forall made ops w, built made ops w ->
    forall block a b y u y' u', In block (map snd (default_blocks (w_graph w))) -> In a block -> In b block -> a <> b ->
      carries (w_graph w) a b y u -> carries (w_graph w) b a y' u' -> False.
Proof.
  intros made ops w H block a b y u y' u' Hb Ia Ib N C C'. pose proof (directed_reached made ops w H) as D.
  destruct (greedy_ok (dkeys (w_graph w)) (dir_degree (w_graph w)) (dir_nbrs (w_graph w)) (proj1 D)) as [P [Nd K]].
  apply in_map_iff in Hb. destruct Hb as [[c r] [E Hr]]. cbn in E. subst r. unfold default_blocks in Hr.
  apply dupdate_In in Hr. destruct Hr as [Hr|[]].
  assert (S : forall x z y u, carries (w_graph w) x z y u -> In z (dir_nbrs (w_graph w) x)).
  { intros x z y0 u0 X. apply carries_edge in X; [|exact D]. unfold dir_nbrs, edge in *.
    destruct (dget Nat.eqb z (succs (w_graph w) x)) as [v|] eqn:G; [|discriminate X].
    apply (dget_In _ Nat.eqb_eq) in G. apply in_map_iff. exists (z, v). auto. }
  apply (K a b c).
  - exact (S b a y' u' C').
  - exact (S a b y u C).
  - exact N.
  - apply (In_dget _ Nat.eqb_eq); [exact Nd|exact (runs_colour _ _ _ _ Hr Ia)].
  - apply (In_dget _ Nat.eqb_eq); [exact Nd|exact (runs_colour _ _ _ _ Hr Ib)].
Qed.

Lemma isolated_lost : forall made ops w w' a,
    built made ops w -> insert_intermediary_nodes w = (w', Ok tt) ->
    in_network w a -> (forall b, ~ linked (w_graph w) a b) -> ~ in_network w' a.
Proof.
  intros made ops w w' a Hb Hi Ha Hl Hin.
  pose proof (addrs_reached made ops w Hb a Ha) as Hm.
  destruct (paths made ops w w' Hb Hi) as [via [V1 [_ [_ [V4 _]]]]].
  apply V4 in Hin. destruct Hin as [x [z [y [u [C [E|[E|E]]]]]]].
  - apply (Hl z). exists y, u. left. rewrite E. exact C.
  - apply (Hl x). exists y, u. right. rewrite E. exact C.
  - destruct (V1 _ _ _ _ C) as [V _]. rewrite <- E in V. unfold addr in *. lia.
Qed.

Lemma solutions_of_network : forall t tau w m F env dx,
    get_model t tau w = Ok m ->
    (forall a n, in_network w a -> has_model w a n -> in_step n) ->
    (forall l ms, listing w l -> Forall2 (has_model w) l ms -> own_clocks t tau ms) ->
    (solves F env dx m <-> network_solution F env dx t tau w).
Proof.
  intros t tau w m F env dx Hm Hs Hc. destruct (get_model_inv _ _ _ _ Hm) as [l [ms [m1 [E1 [E2 _]]]]].
  pose proof (sorted_listing _ _ E1) as HL.
  apply (assembled_solutions t tau w m l ms F env dx Hm HL E2 E1).
  - apply Forall_forall. intros n Hn.
    assert (K : exists a, In a l /\ has_model w a n).
    { clear - E2 Hn. induction E2 as [|a b l0 r0 Hab _ IH]; [destruct Hn|].
      destruct Hn as [<-|Hn]; [exists a; split; [left; reflexivity|exact Hab]|].
      destruct (IH Hn) as [a' [H1 H2]]. exists a'. split; [right; exact H1|exact H2]. }
    destruct K as [a [Ka Kb]]. apply (Hs a n); [|exact Kb].
    destruct HL as [P _]. exact (Permutation_in _ P Ka).
  - exact (Hc l ms HL E2).
Qed.
Lemma assembly_succeeds : forall t tau made ops w l ms,
    built made ops w -> sorted_nodes w = Ok l -> Forall2 (has_model w) l ms ->
    Forall in_step ms -> Forall complete ms -> NoDup (flat_map m_x ms) -> well_connected w ->
    exists m, get_model t tau w = Ok m.
Proof.
  intros t tau made ops w l ms Hb H1 H2 H3 H4 H5 H6.
  apply (get_model_total t tau w l ms H1 H2 H3 H4 H5); [exact (directed_reached made ops w Hb)|exact H6].
Qed.

(** ** Witnesses *)

Local Ltac nodes := unfold in_network; vm_compute; intuition (try discriminate; try lia).

Definition run0 made ops := run_caught net_step ops (new_network made false 1000).

Lemma own_id_refuted : exists ops w a b,
    built_by [] ops w /\ in_network w a /\ in_network w b /\ a <> b /\
    has_id w a 0 /\ has_id w b 0 /\ (forall i, getitem (KInt i) w <> Ok b) /\
    ~ In b (iterate w).
Proof.
  exists [NCreate (tank_node "a" (Some 0%Z) 1 0%Q); NCreate (tank_node "b" None 2 0%Q)].
  exists (run0 [] [NCreate (tank_node "a" (Some 0%Z) 1 0%Q); NCreate (tank_node "b" None 2 0%Q)]), 0%nat, 1%nat.
  split; [exists false, 1000%nat; vm_compute; reflexivity|].
  split; [nodes|]. split; [nodes|]. split; [discriminate|].
  split; [eexists; split; vm_compute; reflexivity|]. split; [eexists; split; vm_compute; reflexivity|].
  split; [|vm_compute; intros [H|[]]; discriminate H].
  intros i H. pose proof (getitem_found _ _ _ H) as [_ [n [Hn Hi]]].
  assert (i = 0%Z). { vm_compute in Hn. injection Hn as <-. vm_compute in Hi. injection Hi as <-. reflexivity. }
  subst i. vm_compute in H. discriminate H.
Qed.

Lemma not_included_refuted : exists made ops w a,
    no_own_ids made ops /\ built_by made ops w /\ in_network w a /\
    (forall i, ~ has_id w a i) /\ ~ In a (iterate w) /\ models w = Raise TypeError.
Proof.
  exists [tank_node "b" None 2 0%Q].
  exists [NCreate (tank_node "a" None 1 0%Q); NConnect (outflow 1) (inflow 2) 1 0].
  exists (run0 [tank_node "b" None 2 0%Q] [NCreate (tank_node "a" None 1 0%Q); NConnect (outflow 1) (inflow 2) 1 0]), 0%nat.
  split; [split; repeat constructor|].
  split; [exists false, 1000%nat; vm_compute; reflexivity|]. split; [nodes|].
  split; [|split; [vm_compute; intros [H|[]]; discriminate H|vm_compute; reflexivity]].
  intros i [n [Hn Hi]]. vm_compute in Hn. injection Hn as <-. discriminate Hi.
Qed.

Lemma rebuilt_refuted : exists ops w,
    no_own_ids [] ops /\ built_by [] ops w /\ length (w_graph w) = 3%nat /\ iterate w = [].
Proof.
  pose (ops := [NCreate (tank_node "a" None 1 0%Q); NCreate (tank_node "b" None 2 0%Q);
                NCreate (tank_node "c" None 3 0%Q); NConnect (outflow 2) (inflow 3) 1 2; NIntermediary]).
  exists ops, (run0 [] ops). split; [split; [constructor|repeat constructor]|].
  split; [exists false, 1000%nat; vm_compute; reflexivity|]. split; vm_compute; reflexivity.
Qed.

Lemma blocks_omit_refuted : exists ops w a,
    built_by [] ops w /\ in_network w a /\ ~ In a (concat (map snd (default_blocks (w_graph w)))).
Proof.
  exists row_history, row, 1%nat. split; [exists false, 1000%nat; vm_compute; reflexivity|].
  split; [nodes|]. vm_compute. intros [H|[H|[]]]; discriminate H.
Qed.
Lemma blocks_linked_refuted : exists ops w a b block,
    built_by [] ops w /\ In block (map snd (default_blocks (w_graph w))) /\
    In a block /\ In b block /\ a <> b /\ linked (w_graph w) a b.
Proof.
  exists (named_pair "a" "b"), (run0 [] (named_pair "a" "b")), 0%nat, 1%nat, [0; 1]%nat.
  split; [exists false, 1000%nat; vm_compute; reflexivity|]. split; [vm_compute; left; reflexivity|].
  split; [left; reflexivity|]. split; [right; left; reflexivity|]. split; [discriminate|].
  exists (outflow 1), (inflow 2). left. eexists. split; [vm_compute; left; reflexivity|left; reflexivity].
Qed.

Lemma isolated_example :
  let ops := row_history ++ [NCreate (tank_node "e" None 5 0%Q)] in
  let w := run_caught net_step ops (new_network [] false 1000) in
  in_network w 4%nat /\ (forall b, ~ linked (w_graph w) 4%nat b) /\
  snd (insert_intermediary_nodes w) = Ok tt.
Proof.
  cbv zeta. split; [nodes|]. split; [|vm_compute; reflexivity].
  intros b [y [u [[d [H1 H2]]|[d [H1 H2]]]]]; vm_compute in H1;
    repeat (destruct H1 as [H1|H1];
            [first [discriminate H1 | injection H1 as E1 E2; subst; cbn in H2; intuition discriminate
                   | injection H1 as E2; subst; cbn in H2; intuition discriminate]|]); exact H1.
Qed.
Lemma not_atomic_refuted : exists made ops w,
    built_by made ops w /\ linked (w_graph w) 0%nat 1%nat /\
    snd (insert_intermediary_nodes w) <> Ok tt /\
    w_graph (fst (insert_intermediary_nodes w)) = [].
Proof.
  pose (ops := [NCreate (new_node (Some "a"%string) None (Some (tank 1)) None None); NCreate (tank_node "b" None 2 0%Q);
                NConnect (outflow 1) (inflow 2) 0 1]).
  exists [], ops, (run0 [] ops). split; [exists false, 1000%nat; vm_compute; reflexivity|].
  split; [|split; [vm_compute; discriminate|vm_compute; reflexivity]].
  exists (outflow 1), (inflow 2). left. eexists. split; [vm_compute; left; reflexivity|left; reflexivity].
Qed.
Lemma start_time_refuted : exists ops w t tau,
    built_by [] ops w /\ (exists o, get_problem t tau w = Ok o) /\
    snd (insert_intermediary_nodes w) = Ok tt /\
    forall o, get_problem t tau (fst (insert_intermediary_nodes w)) <> Ok o.
Proof.
  pose (ops := [NCreate (tank_node "a" None 1 2%Q); NCreate (tank_node "b" None 2 2%Q);
                NConnect (outflow 1) (inflow 2) 0 1]).
  exists ops, (run0 [] ops), 1%nat, 2%nat. split; [exists false, 1000%nat; vm_compute; reflexivity|].
  split; [eexists; vm_compute; reflexivity|]. split; [vm_compute; reflexivity|].
  intros o. vm_compute. discriminate.
Qed.
Lemma sizes_refuted : exists ops w, built_by [] ops w /\ forall t tau m, get_model t tau w <> Ok m.
Proof.
  pose (ops := [NCreate (tank_node "a" None 1 0%Q); NCreate (tank_node "b" None 2 0%Q);
                NConnect (outflow 1 ++ outflow 1) (inflow 2) 0 1]).
  exists ops, (run0 [] ops). split; [exists false, 1000%nat; vm_compute; reflexivity|].
  intros t tau m H.
  destruct (get_model_inv _ _ _ _ H) as [l [ms [m1 [_ [_ [_ K]]]]]].
  assert (E : edges (w_graph (run0 [] ops)) = [(0%nat, 1%nat, ([104; 104]%nat, [205]%nat))]) by (vm_compute; reflexivity).
  unfold addr, conn in *. rewrite E in K. unfold connect_edge in K. cbn [run_all fst snd map] in K.
  unfold cbind, connect in K. cbn in K. discriminate K.
Qed.
Lemma foreign_output_refuted : exists made ops w a b y u s,
    built_by made ops w /\ carries (w_graph w) a b y u /\ In s y /\
    forall m, has_model w a m -> ~ In s (m_x m ++ m_y m ++ m_u m ++ m_p m ++ m_theta m).
Proof.
  pose (ops := [NCreate (tank_node "a" None 1 0%Q); NCreate (tank_node "b" None 2 0%Q);
                NConnect (outflow 1 ++ [999%nat]) (inflow 2) 0 1]).
  exists [], ops, (run0 [] ops), 0%nat, 1%nat, (outflow 1 ++ [999%nat]), (inflow 2), 999%nat.
  split; [exists false, 1000%nat; vm_compute; reflexivity|].
  split; [eexists; split; [vm_compute; left; reflexivity|left; reflexivity]|].
  split; [apply in_or_app; right; left; reflexivity|].
  intros m [n [Hn Hm]]. vm_compute in Hn. injection Hn as <-. cbn in Hm. injection Hm as <-. vm_compute.
  intuition discriminate.
Qed.
Lemma initial_example :
  let w := run_caught net_step (named_pair "a" "b") (new_network [] false 1000) in
  built [] (named_pair "a" "b") w /\ names_differ w /\
  get_initial_condition (fun _ => Ok ([7; 8], [1; 2; 3])%Q) [] (fun _ q => q) (fun s _ => s)
    1%nat 2%nat 5%Q w =
  Ok [(Some "a"%string, ([7], [1], [0])%Q); (Some "b"%string, ([8], [2], [3])%Q)].
Proof.
  cbv zeta. split; [exists false, 1000%nat; reflexivity|]. split; [|vm_compute; reflexivity].
  intros a b na nb Ha Hb Ea Eb. vm_compute in Ha, Hb.
  destruct Ha as [<-|[<-|[]]], Hb as [<-|[<-|[]]]; try reflexivity; vm_compute in Ea, Eb;
    injection Ea as <-; injection Eb as <-; discriminate.
Qed.
Lemma same_name_refuted : exists ops w integrate c,
    built_by [] ops w /\ in_network w 0%nat /\ in_network w 1%nat /\
    get_initial_condition integrate [] (fun _ q => q) (fun s _ => s) 1%nat 2%nat 5%Q w = Ok c /\
    length c = 1%nat.
Proof.
  exists (named_pair "a" "a"), (run0 [] (named_pair "a" "a")), (fun _ => Ok ([7; 8], [1; 2; 3])%Q).
  eexists. split; [exists false, 1000%nat; vm_compute; reflexivity|]. split; [nodes|]. split; [nodes|].
  split; vm_compute; reflexivity.
Qed.

Lemma made_node : forall name id m p model_name,
    let n := new_node name id m p model_name in
    n_id n = id /\ n_problem n = p /\
    (forall x, m = Some x -> n_model n = Some x) /\
    (forall q, m = None -> p = Some q -> n_model n = Some (o_model q)) /\
    (m = None -> p = None -> n_model n = None) /\
    (forall s, name = Some s -> n_name n = Some s) /\
    (name = None -> n_model n <> None -> n_name n = model_name) /\
    (name = None -> n_model n = None -> n_name n = None).
Proof.
  intros [s|] id [x|] [q|] model_name; cbn; repeat match goal with |- _ /\ _ => split end; intros; congruence.
Qed.

From Coq Require Import String Permutation Sorted.
From Verif Require Import Base BaseProofs UtilModel UtilProofs ExprModel NlpModel SysModel SysSpec
  SysProofs SysEqProofs SysCtlProofs SysMergeProofs SimModel OcpModel OcpSpec OcpProofs OcpMoreProofs DataModel NetModel NetSpec NetProofs NetColorProofs
  NetInterProofs.
Local Open Scope list_scope.

(** ** Connecting along all edges *)

Definition connect_edge (e : addr * addr * conn) : cmd model unit :=
  connect (snd (snd e)) (map EVar (fst (snd e))) false.
Definition edge_inputs (es : list (addr * addr * conn)) : list sym := flat_map (fun e => snd (snd e)) es.

Lemma edge_inputs_all : forall w, edge_inputs (edges (w_graph w)) = connected_inputs w.
Proof.
  intros w. unfold edge_inputs, edges, connected_inputs. induction (w_graph w) as [|[a d] g IH]; simpl; [reflexivity|].
  rewrite flat_map_app. f_equal; [|exact IH]. clear. induction d as [|[b c] d IH]; simpl; [reflexivity|]. f_equal. exact IH.
Qed.

Lemma agree_eval : forall F env u y,
    Forall2 (fun c e => (env c == eval F env e)%Q) u (map EVar y) <-> agree env u y.
Proof.
  intros F env u; induction u as [|c u IH]; intros [|v y]; simpl.
  - split; intros _; constructor.
  - split; intros H; inversion H.
  - split; intros H; inversion H.
  - split; intros H; inversion H; subst; constructor; try assumption; apply IH; assumption.
Qed.

Lemma connect_count : forall u y m m', ctl_count m -> connect u y false m = (m', Ok tt) -> ctl_count m'.
Proof.
  intros u y m m' C H. pose proof (count_step (fun _ _ => false) (MConnect u y false) m C) as K. simpl in K. rewrite H in K. exact K.
Qed.

Lemma filter_not_in_app : forall a b l, filter (not_in b) (filter (not_in a) l) = filter (not_in (a ++ b)) l.
Proof.
  intros a b l. induction l as [|c l IH]; simpl; [reflexivity|].
  assert (E : not_in (a ++ b) c = (not_in a c && not_in b c)%bool).
  { unfold not_in. destruct (in_dec Nat.eq_dec c (a ++ b)) as [I|I], (in_dec Nat.eq_dec c a) as [Ia|Ia],
      (in_dec Nat.eq_dec c b) as [Ib|Ib]; try reflexivity; exfalso; rewrite in_app_iff in I; tauto. }
  rewrite E. destruct (not_in a c); simpl; [destruct (not_in b c)|]; rewrite ?IH; reflexivity.
Qed.

Lemma filter_not_in_nil : forall l, filter (not_in []) l = l.
Proof. intros l. induction l as [|c l IH]; simpl; [reflexivity|]. rewrite IH. reflexivity. Qed.

Lemma connect_all : forall es m m', ctl_count m -> run_all connect_edge es m = (m', Ok tt) ->
    ctl_count m' /\ m_x m' = m_x m /\ m_x_0 m' = m_x_0 m /\ m_p m' = m_p m /\ m_theta m' = m_theta m /\
    m_y m' = m_y m ++ edge_inputs es /\ m_u m' = filter (not_in (edge_inputs es)) (m_u m) /\
    length (m_alg m') = (length (m_alg m) + length (edge_inputs es))%nat /\
    map fst (m_ode m') = map fst (m_ode m) /\
    forall F env dx, solves F env dx m' <->
      solves F env dx m /\ forall a b y u, In (a, b, (y, u)) es -> agree env u y.
Proof.
  intros es; induction es as [|[[a b] [y u]] es IH]; intros m m' C H; cbn [run_all] in H.
  - injection H as <-. simpl. rewrite app_nil_r, filter_not_in_nil. repeat (split; [first [exact C|reflexivity|lia]|]).
    intros F env dx. split; [intros K; split; [exact K|intros ? ? ? ? []]|intros [K _]; exact K].
  - unfold connect_edge at 1 in H. cbn [fst snd] in H.
    destruct (connect u (map EVar y) false m) as [m1 [[]|e]] eqn:E; [|discriminate].
    pose proof (connect_count u (map EVar y) m m1 C E) as C1.
    destruct (connect_shape u (map EVar y) false m m1 C E) as [A1 [A2 [A3 [A4 [A5 [A6 [_ [_ [A8 A9]]]]]]]]].
    destruct (IH m1 m' C1 H) as [B0 [B1 [B2 [B3 [B4 [B5 [B6 [B7 [B8 B9]]]]]]]]].
    split; [exact B0|]. split; [congruence|]. split; [congruence|]. split; [congruence|]. split; [congruence|].
    unfold edge_inputs in *. simpl. split; [rewrite B5, A5, <- app_assoc; reflexivity|].
    split; [rewrite B6, A6, filter_not_in_app; reflexivity|]. split; [rewrite B7, A8, app_length; lia|].
    split; [congruence|]. intros F env dx. rewrite (B9 F env dx), (connect_solves F env dx u (map EVar y) m m1 C E), agree_eval.
    split.
    + intros [[K1 K2] K3]. split; [exact K1|]. intros a' b' y' u' [K|K]; [injection K as -> -> -> ->; exact K2|apply (K3 a' b' y' u' K)].
    + intros [K1 K2]. split; [split; [exact K1|apply (K2 a b); left; reflexivity]|]. intros a' b' y' u' K. apply (K2 a' b'). right. exact K.
Qed.

Lemma connect_all_total : forall es m, ctl_count m ->
    (forall c, In c (m_u m) -> In c (m_u_par m)) ->
    NoDup (edge_inputs es) ->
    (forall a b y u, In (a, b, (y, u)) es -> u <> [] /\ length u = length y /\ forall c, In c u -> In c (m_u m)) ->
    snd (run_all connect_edge es m) = Ok tt.
Proof.
  intros es; induction es as [|[[a b] [y u]] es IH]; intros m C P N H; [reflexivity|]. cbn [run_all].
  unfold connect_edge at 1. cbn [fst snd].
  destruct (H a b y u (or_introl eq_refl)) as [Hu [Hl Hc]].
  assert (S : snd (connect u (map EVar y) false m) = Ok tt).
  { apply connect_succeeds; [exact C|]. split; [rewrite map_length; exact Hl|].
    destruct u as [|c u]; [congruence|]. assert (Ic : In c (m_u m)) by (apply Hc; left; reflexivity).
    split; exists c; (split; [left; reflexivity|auto]). }
  destruct (connect u (map EVar y) false m) as [m1 r] eqn:E. simpl in S. subst r.
  pose proof (connect_count u (map EVar y) m m1 C E) as C1.
  destruct (connect_shape u (map EVar y) false m m1 C E) as [_ [_ [_ [_ [_ [A6 [A7 _]]]]]]].
  unfold edge_inputs in N. simpl in N. fold (edge_inputs es) in N.
  assert (N2 : NoDup (edge_inputs es)) by (apply NoDup_app_r in N; exact N).
  apply IH; [exact C1| |exact N2|].
  - intros c Ic. rewrite A6 in Ic. rewrite A7. apply filter_In in Ic. apply filter_In. split; [apply P, Ic|apply Ic].
  - intros a' b' y' u' K. destruct (H a' b' y' u' (or_intror K)) as [Hu' [Hl' Hc']]. split; [exact Hu'|]. split; [exact Hl'|].
    intros c Ic. rewrite A6. apply filter_In. split; [apply Hc', Ic|]. unfold not_in.
    destruct (in_dec Nat.eq_dec c u) as [Iu|]; [|reflexivity]. exfalso.
    apply (NoDup_app_disjoint _ _ _ c N Iu). unfold edge_inputs. apply in_flat_map. exists (a', b', (y', u')). auto.
Qed.

(** ** Including all models *)

Lemma include_models_count : forall ms m m', ctl_count m -> include_models ms m = (m', Ok tt) -> ctl_count m'.
Proof.
  intros ms m m' C H. pose proof (count_step (fun _ _ => false) (MIncludeModels ms) m C) as K. simpl in K. rewrite H in K. exact K.
Qed.

Lemma include_models_total : forall ms m, in_step m -> Forall in_step ms -> Forall complete ms ->
    NoDup (m_x m ++ flat_map m_x ms) -> snd (include_models ms m) = Ok tt.
Proof.
  intros ms; induction ms as [|o ms IH]; intros m Hm Hs Hc N; [reflexivity|].
  unfold include_models. cbn [run_all]. inversion Hs; subst. inversion Hc; subst. simpl in N.
  assert (Hd : forall s, In s (m_x o) -> ~ In s (m_x m)).
  { intros s K1 K2. apply (NoDup_app_disjoint _ _ _ s N K2). apply in_app_iff. auto. }
  assert (E : include_model o m = (identified o m, Ok tt)).
  { rewrite include_model_run by assumption. rewrite (proj2 (readback_length o H1) H3), Nat.eqb_refl. reflexivity. }
  rewrite E. apply IH; [apply in_step_identified; assumption|assumption|assumption|].
  unfold identified, replaced, SysMergeProofs.appended; fields. rewrite <- app_assoc. exact N.
Qed.

Lemma in_step_new : forall t tau, in_step (new_model t tau).
Proof. intros t tau. split; [reflexivity|constructor]. Qed.

Lemma own_times_new : forall t tau ms, own_clocks t tau ms -> own_times (new_model t tau) ms.
Proof.
  intros t tau ms [H1 H2]. unfold own_times. change (m_t (new_model t tau)) with t. change (m_tau (new_model t tau)) with tau. split.
  - apply Forall_forall. intros m Im. destruct (H1 m Im) as [A [B [C D]]].
    repeat split; try assumption; first [intros ? ? []|intros ? []].
  - revert H1. induction H2 as [|m ms Hm H2 IH]; intros H1; [constructor|]. constructor.
    + apply Forall_forall. intros m' Im. rewrite Forall_forall in Hm. destruct (Hm m' Im) as [A B].
      destruct (H1 m' (or_intror Im)) as [C [D [E G]]]. repeat split; try assumption; try apply A; try apply B.
    + apply IH. intros m' Im. apply H1. right. exact Im.
Qed.

Lemma solves_new : forall F env dx t tau, solves F env dx (new_model t tau).
Proof. intros F env dx t tau. split; [intros ? ? []|intros ? []]. Qed.

(** ** The assembled model *)

Lemma all_some_ok : forall (A : Type) (l : list (option A)) r, all_some l = Ok r <-> l = map Some r.
Proof.
  intros A l; induction l as [|[a|] l IH]; intros r; simpl.
  - split; [intros H; injection H as <-; reflexivity|]. destruct r; [reflexivity|discriminate].
  - destruct (all_some l) as [r'|e].
    + split.
      * intros H. injection H as <-. simpl. f_equal. apply IH. reflexivity.
      * destruct r as [|b r]; [discriminate|]. intros H. injection H as -> H. apply IH in H. congruence.
    + split; [discriminate|]. destruct r as [|b r]; [discriminate|]. intros H. injection H as -> H. apply IH in H. discriminate.
  - split; [discriminate|]. destruct r; discriminate.
Qed.

Lemma models_some : forall w l ms, map (model_of w) l = map Some ms <-> Forall2 (has_model w) l ms.
Proof.
  intros w l; induction l as [|a l IH]; intros [|m ms]; simpl.
  - split; [constructor|reflexivity].
  - split; [discriminate|intros H; inversion H].
  - split; [discriminate|intros H; inversion H].
  - split.
    + intros H. injection H as H1 H2. constructor; [|apply IH, H2]. unfold model_of, node_at in H1. unfold has_model.
      destruct (nth_error (w_store w) a) as [n|]; [|discriminate]. exists n. auto.
    + intros H. inversion H as [|? ? ? ? [n [E1 E2]] H2]; subst. apply IH in H2. rewrite H2. f_equal.
      unfold model_of, node_at. rewrite E1. exact E2.
Qed.

Lemma problems_some : forall w l ps, map (problem_of w) l = map Some ps <-> Forall2 (has_problem w) l ps.
Proof.
  intros w l; induction l as [|a l IH]; intros [|m ms]; simpl.
  - split; [constructor|reflexivity].
  - split; [discriminate|intros H; inversion H].
  - split; [discriminate|intros H; inversion H].
  - split.
    + intros H. injection H as H1 H2. constructor; [|apply IH, H2]. unfold problem_of, node_at in H1. unfold has_problem.
      destruct (nth_error (w_store w) a) as [n|]; [|discriminate]. exists n. auto.
    + intros H. inversion H as [|? ? ? ? [n [E1 E2]] H2]; subst. apply IH in H2. rewrite H2. f_equal.
      unfold problem_of, node_at. rewrite E1. exact E2.
Qed.

Lemma get_model_inv : forall t tau w m, get_model t tau w = Ok m ->
    exists l ms m1, sorted_nodes w = Ok l /\ Forall2 (has_model w) l ms /\
      include_models ms (new_model t tau) = (m1, Ok tt) /\
      run_all connect_edge (edges (w_graph w)) m1 = (m, Ok tt).
Proof.
  intros t tau w m H. unfold get_model, models in H. destruct (sorted_nodes w) as [l|e]; [|discriminate].
  destruct (all_some (map (model_of w) l)) as [ms|e] eqn:E; [|discriminate]. apply all_some_ok, models_some in E.
  destruct (cbind (include_models ms) _ (new_model t tau)) as [m2 [[]|e]] eqn:E2; [|discriminate].
  injection H as ->. apply cbind_ok in E2. destruct E2 as [m1 [[] [E2 E3]]].
  exists l, ms, m1. split; [reflexivity|]. split; [exact E|]. split; [exact E2|exact E3].
Qed.

Lemma sorted_listing : forall w l, sorted_nodes w = Ok l -> listing w l.
Proof.
  intros w l H. pose proof H as H0. unfold sorted_nodes in H.
  destruct ((1 <? length (dkeys (w_graph w)))%nat && _)%bool eqn:E; [discriminate|]. injection H as H.
  destruct (Nat.ltb_spec 1 (length (dkeys (w_graph w)))) as [L|L].
  - apply (sorted_nodes_listing w l); [|exact H0]. intros a Ha. simpl in E.
    destruct (id_of w a) as [i|] eqn:Ei; [exists i; apply id_of_has, Ei|].
    exfalso. assert (K : existsb (fun a => match id_of w a with None => true | _ => false end) (dkeys (w_graph w)) = true).
    { apply existsb_exists. exists a. split; [exact Ha|]. rewrite Ei. reflexivity. }
    congruence.
  - subst l. split; [apply sort_by_perm|]. unfold dkeys in *.
    destruct (map fst (w_graph w)) as [|a [|b r]] eqn:Em; simpl in *; [constructor| |lia].
    repeat constructor.
Qed.

Lemma listing_In : forall w l, listing w l -> forall a, In a l <-> in_network w a.
Proof.
  intros w l [P _] a. split; [apply (Permutation_in a P)|apply (Permutation_in a (Permutation_sym P))].
Qed.

Lemma assembled : forall t tau w m, get_model t tau w = Ok m ->
    exists l ms, listing w l /\ Forall2 (has_model w) l ms /\
      (Forall in_step ms ->
       m_x m = flat_map m_x ms /\ m_x_0 m = flat_map m_x_0 ms /\
       m_y m = flat_map m_y ms ++ connected_inputs w /\
       m_u m = filter (not_in (connected_inputs w)) (flat_map m_u ms) /\
       m_p m = flat_map m_p ms /\ m_theta m = flat_map m_theta ms /\
       length (m_alg m) = (length (flat_map m_alg ms) + length (connected_inputs w))%nat /\
       length (m_ode m) = length (flat_map m_ode ms) /\ in_step m).
Proof.
  intros t tau w m H. destruct (get_model_inv t tau w m H) as [l [ms [m1 [E1 [E2 [E3 E4]]]]]].
  exists l, ms. split; [apply sorted_listing, E1|]. split; [exact E2|]. intros Hs.
  destruct (include_models_vectors ms _ m1 (in_step_new t tau) Hs E3) as [A1 [A2 [A3 [A4 [_ [A5 [A6 [A7 [A8 [_ [_ [A9 _]]]]]]]]]]]].
  assert (C : ctl_count m1) by (apply (include_models_count ms (new_model t tau)); [reflexivity|exact E3]).
  destruct (connect_all _ m1 m C E4) as [_ [B1 [B2 [B3 [B4 [B5 [B6 [B7 [B8 _]]]]]]]]].
  rewrite edge_inputs_all in *. simpl in A1, A2, A3, A4, A5, A6, A7, A8.
  rewrite B1, B2, B3, B4, B5, B6, B7, A1, A2, A3, A4, A5, A6, A7.
  repeat (split; [reflexivity|]). split.
  - rewrite <- A8. rewrite <- (map_length fst (m_ode m)), B8, map_length. reflexivity.
  - destruct A9 as [A9 A10]. split; [rewrite B8, A9, B1; reflexivity|]. rewrite B1. exact A10.
Qed.

Lemma assembled_solutions : forall t tau w m l ms F env dx,
    get_model t tau w = Ok m -> listing w l -> Forall2 (has_model w) l ms ->
    sorted_nodes w = Ok l ->
    Forall in_step ms -> own_clocks t tau ms ->
    (solves F env dx m <-> network_solution F env dx t tau w).
Proof.
  intros t tau w m l ms F env dx H Hl Hm Hso Hs Ho.
  destruct (get_model_inv t tau w m H) as [l' [ms' [m1 [E1 [E2 [E3 E4]]]]]].
  rewrite Hso in E1. injection E1 as <-.
  assert (ms' = ms).
  { clear - E2 Hm. revert ms' E2. induction Hm as [|a x l ms Hx Hm IH]; intros ms' E2; inversion E2; subst; [reflexivity|].
    f_equal; [|apply IH; assumption]. destruct Hx as [n [A B]], H1 as [n' [A' B']]. congruence. }
  subst ms'.
  assert (C : ctl_count m1) by (apply (include_models_count ms (new_model t tau)); [reflexivity|exact E3]).
  destruct (connect_all _ m1 m C E4) as [_ [_ [_ [_ [_ [_ [_ [_ [_ B9]]]]]]]]]. rewrite (B9 F env dx).
  rewrite (include_models_solves F env dx ms _ m1 (in_step_new t tau) Hs (own_times_new t tau ms Ho) E3).
  unfold network_solution. rewrite Forall_forall. split.
  - intros [[_ K1] K2]. split.
    + intros a x Ha Hx. apply (listing_In w l Hl) in Ha.
      assert (Ix : In x ms).
      { clear - Hm Ha Hx. induction Hm as [|b y l ms Hy Hm IH]; [destruct Ha|]. destruct Ha as [->|Ha].
        - left. destruct Hx as [n [A B]], Hy as [n' [A' B']]. congruence.
        - right. apply IH, Ha. }
      exact (K1 x Ix).
    + intros a b y u K. apply (K2 a b y u). apply edges_In, K.
  - intros [K1 K2]. split.
    + split; [apply solves_new|]. intros x Ix.
      assert (Ha : exists a, In a l /\ has_model w a x).
      { clear - Hm Ix. induction Hm as [|b y l ms Hy Hm IH]; [destruct Ix|]. destruct Ix as [->|Ix].
        - exists b. simpl. auto.
        - destruct (IH Ix) as [a [A B]]. exists a. simpl. auto. }
      destruct Ha as [a [Ia Hx]]. apply (K1 a x); [apply (listing_In w l Hl), Ia|exact Hx].
    + intros a b y u K. apply (K2 a b y u). apply edges_In, K.
Qed.

Lemma get_model_total : forall t tau w l ms,
    sorted_nodes w = Ok l -> Forall2 (has_model w) l ms ->
    Forall in_step ms -> Forall complete ms -> NoDup (flat_map m_x ms) -> directed_graph (w_graph w) -> well_connected w ->
    exists m, get_model t tau w = Ok m.
Proof.
  intros t tau w l ms Hl Hm Hs Hc Hn D [Hw1 Hw2]. unfold get_model, models. rewrite Hl.
  rewrite (proj2 (all_some_ok _ _ ms) (proj2 (models_some w l ms) Hm)).
  pose proof (include_models_total ms (new_model t tau) (in_step_new t tau) Hs Hc Hn) as S.
  destruct (include_models ms (new_model t tau)) as [m1 r] eqn:E1. simpl in S. subst r.
  unfold cbind. rewrite E1.
  assert (C : ctl_count m1) by (apply (include_models_count ms (new_model t tau)); [reflexivity|exact E1]).
  destruct (include_models_vectors ms _ m1 (in_step_new t tau) Hs E1) as [_ [_ [_ [A4 [A5 _]]]]]. simpl in A4, A5.
  assert (S2 : snd (run_all connect_edge (edges (w_graph w)) m1) = Ok tt).
  { apply connect_all_total.
    - exact C.
    - intros c Ic. rewrite A4 in Ic. rewrite A5. exact Ic.
    - rewrite edge_inputs_all. exact Hw1.
    - intros a b y u K. apply edges_In in K. destruct (Hw2 a b y u K) as [K1 [K2 [m [K3 K4]]]].
      split; [exact K1|]. split; [exact K2|]. intros c Ic. rewrite A4. apply in_flat_map. exists m. split; [|apply K4, Ic].
      assert (Hb : In b l).
      { apply (listing_In w l (sorted_listing w l Hl)). destruct K as [d [Kd Kb]]. destruct D as [_ D].
        apply (proj2 (D a d Kd)). apply in_map_iff. exists (b, (y, u)). auto. }
      clear - Hm Hb K3. induction Hm as [|x z l ms Hz Hm IH]; [destruct Hb|]. destruct Hb as [->|Hb].
      + left. destruct K3 as [n [A B]], Hz as [n' [A' B']]. congruence.
      + right. apply IH, Hb. }
  destruct (run_all connect_edge (edges (w_graph w)) m1) as [m r] eqn:E2. simpl in S2. subst r. unfold connect_edge in E2.
  exists m. match goal with |- context [run_all ?f ?l m1] => replace (run_all f l m1) with (m, Ok (A := unit) tt) by (symmetry; exact E2) end.
  reflexivity.
Qed.

(** ** The assembled problem *)

Lemma ocp_merge_model : forall ps o o', ocp_merge ps o = (o', Ok tt) ->
    include_models (map o_model ps) (o_model o) = (o_model o', Ok tt).
Proof.
  intros ps; induction ps as [|q ps IH]; intros o o' H; unfold ocp_merge in H; cbn [run_all] in H.
  - injection H as <-. reflexivity.
  - destruct (merge_problem q o) as [o1 [[]|e]] eqn:E; [|discriminate].
    apply merge_problem_appended in E. unfold appended in E.
    repeat match type of E with _ /\ _ => destruct E as [_ E] end. destruct E as [m' [E1 E2]].
    unfold merge, include_models, cbind in E1. cbn [run_all] in E1. cbn [map]. unfold include_models. cbn [run_all].
    destruct (include_model (o_model q) (o_model o)) as [m1 [[]|e]]; [|discriminate]. injection E1 as <-. rewrite <- E2.
    apply (IH o1 o' H).
Qed.

Definition same_model {A : Type} (c : cmd ocp A) : Prop := forall o, o_model (fst (c o)) = o_model o.
Lemma same_model_bind : forall A B (c : cmd ocp A) (k : A -> cmd ocp B),
    same_model c -> (forall a, same_model (k a)) -> same_model (cbind c k).
Proof.
  intros A B c k Hc Hk o. unfold cbind. pose proof (Hc o) as H1. destruct (c o) as [o1 [a|e]]; [|exact H1].
  rewrite (Hk a o1). exact H1.
Qed.
Lemma same_model_set : forall A (r : ocp -> res A) put,
    (forall a o, o_model (put a o) = o_model o) -> same_model (cset r put).
Proof. intros A r put H o. unfold cset. destruct (r o); [apply H|reflexivity]. Qed.

Lemma ocp_connect_model : forall u y r o o', ocp_connect u y r o = (o', Ok tt) ->
    connect u y r (o_model o) = (o_model o', Ok tt).
Proof.
  intros u y r o o' H. unfold ocp_connect in H. grd H. apply cbind_ok in H. destruct H as [o0 [[] [H1 H]]]. apply on_model_ok in H1. destruct H1 as [m' [Hm E0]].
  rewrite Hm. f_equal. transitivity (o_model o0); [subst o0; reflexivity|].
  match type of H with ?c o0 = _ => assert (S : same_model c) end.
  2:{ specialize (S o0). rewrite H in S. symmetry. exact S. }
  assert (N : same_model (cret tt)) by (intros o1; reflexivity).
  apply same_model_bind; [|intros _].
  - destruct r; [exact N|]. apply same_model_bind; [|intros _; apply same_model_bind; [|intros _]].
    + destruct (o_u_guess o), (o_y_guess o); try exact N. apply same_model_set; reflexivity.
    + apply same_model_set; reflexivity.
    + apply same_model_set; reflexivity.
  - apply same_model_bind; [apply same_model_set; reflexivity|intros _].
    apply same_model_bind; [apply same_model_set; reflexivity|intros _].
    apply same_model_bind; [|intros _].
    + destruct (o_u_guess o); [|exact N]. apply same_model_set; reflexivity.
    + apply same_model_bind; [apply same_model_set; reflexivity|intros _]. apply same_model_set; reflexivity.
Qed.

Definition connect_problem_edge (e : addr * addr * conn) : cmd ocp unit :=
  ocp_connect (snd (snd e)) (map EVar (fst (snd e))) false.

Lemma connect_problem_all : forall es o o', run_all connect_problem_edge es o = (o', Ok tt) ->
    run_all connect_edge es (o_model o) = (o_model o', Ok tt) /\ untouched o o'.
Proof.
  intros es; induction es as [|e es IH]; intros o o' H; cbn [run_all] in H |- *.
  - injection H as <-. split; [reflexivity|apply untouched_refl].
  - destruct (connect_problem_edge e o) as [o1 [[]|x]] eqn:E; [|discriminate].
    unfold connect_problem_edge in E. pose proof (ocp_connect_model _ _ _ _ _ E) as E1.
    unfold connect_edge at 1. rewrite E1. destruct (IH o1 o' H) as [I1 I2]. split; [exact I1|].
    apply (untouched_trans o o1 o'); [|exact I2].
    pose proof (connect_stays (snd (snd e)) (map EVar (fst (snd e))) false o) as S. rewrite E in S. exact S.
Qed.

Lemma get_problem_inv : forall t tau w o, get_problem t tau w = Ok o ->
    exists l ps o0 o1, sorted_nodes w = Ok l /\ Forall2 (has_problem w) l ps /\ ps <> [] /\
      new_ocp (new_model t tau) None (o_t_0 (hd o ps)) (o_t_f (hd o ps)) = Ok o0 /\
      ocp_merge ps o0 = (o1, Ok tt) /\
      run_all connect_problem_edge (edges (w_graph w)) o1 = (o, Ok tt).
Proof.
  intros t tau w o H. unfold get_problem, problems in H. destruct (sorted_nodes w) as [l|e]; [|discriminate].
  destruct (all_some (map (problem_of w) l)) as [ps|e] eqn:E; [|discriminate]. apply all_some_ok, problems_some in E.
  destruct ps as [|p ps]; [discriminate|].
  destruct (new_ocp (new_model t tau) None (o_t_0 p) (o_t_f p)) as [o0|e] eqn:E0; [|discriminate].
  destruct (cbind (ocp_merge (p :: ps)) _ o0) as [o2 [[]|e]] eqn:E2; [|discriminate].
  injection H as ->. apply cbind_ok in E2. destruct E2 as [o1 [[] [E2 E3]]].
  exists l, (p :: ps), o0, o1. split; [reflexivity|]. split; [exact E|]. split; [discriminate|]. split; [exact E0|].
  split; [exact E2|exact E3].
Qed.

Lemma assembled_problem : forall t tau w o, get_problem t tau w = Ok o ->
    exists l ps, listing w l /\ Forall2 (has_problem w) l ps /\ ps <> [] /\
      let ms := map o_model ps in
      Forall (same_horizon o) ps /\
      o_x_0 o = flat_map o_x_0 ps /\ o_eta o = flat_map o_eta ps /\
      o_p_opt o = flat_map o_p_opt ps /\ o_theta_opt o = flat_map o_theta_opt ps /\
      o_h o = flat_map o_h ps /\ o_h_initial o = flat_map o_h_initial ps /\ o_h_final o = flat_map o_h_final ps /\
      o_g_eq o = flat_map o_g_eq ps /\ o_g_ineq o = flat_map o_g_ineq ps /\
      o_when_eq o = flat_map o_when_eq ps /\ o_when_ineq o = flat_map o_when_ineq ps /\
      (forall ls, Forall2 (fun q c => o_L q = [c]) ps ls ->
         exists e, o_L o = [e] /\ forall F env, (eval F env e == qsum (map (eval F env) ls))%Q) /\
      (forall ls, Forall2 (fun q c => o_V q = [c]) ps ls ->
         exists e, o_V o = [e] /\ forall F env, (eval F env e == qsum (map (eval F env) ls))%Q) /\
      (forall ls, Forall2 (fun q c => o_S q = [c]) ps ls ->
         exists e, o_S o = [e] /\ forall F env, (eval F env e == qsum (map (eval F env) ls))%Q) /\
      (Forall in_step ms ->
         m_x (o_model o) = flat_map m_x ms /\
         m_y (o_model o) = flat_map m_y ms ++ connected_inputs w /\
         m_u (o_model o) = filter (not_in (connected_inputs w)) (flat_map m_u ms)) /\
      (Forall in_step ms -> own_clocks t tau ms -> forall F env dx,
         solves F env dx (o_model o) <->
         Forall (fun m => solves F (assign env [m_t m; m_tau m] [env t; env tau]) dx m) ms /\ edges_hold env w).
Proof.
  intros t tau w o H. destruct (get_problem_inv t tau w o H) as [l [ps [o0 [o1 [E1 [E2 [E3 [E4 [E5 E6]]]]]]]]].
  exists l, ps. split; [apply sorted_listing, E1|]. split; [exact E2|]. split; [exact E3|]. cbv zeta.
  destruct (connect_problem_all _ o1 o E6) as [C1 C2].
  pose proof (ocp_merge_model ps o0 o1 E5) as M1.
  assert (F0 : o0 = mkOcp (o_t_0 (hd o ps)) (o_t_f (hd o ps)) [] (new_model t tau) [] [] []
    [] [] [] [] [] [] [] [] [] [] [] [] [] [] [] [] [] [] [] [EConst 0%Q] [EConst 0%Q] [EConst 0%Q] None None None false None)
    by (unfold new_ocp in E4; simpl in E4; injection E4 as <-; reflexivity).
  destruct (merge_all_appended ps o0 o1 E5) as [A1 [A2 [A3 [A4 [A5 [A6 [A7 [A8 [A9 [A10 [A11 [A12 [A13 [A14 _]]]]]]]]]]]]]].
  pose proof (w_C26_costs ps o0 o1 (EConst 0%Q)) as W.
  destruct C2 as [C2 [W1 [W2 [T0 [Tf [X0 [Et [_ [_ [Po [To _]]]]]]]]]]].
  unfold problem_expressions in C2. injection C2 as P1 P2 P3 P4 P5 P6 P7 P8.
  assert (EM : o_model o0 = new_model t tau) by (rewrite F0; reflexivity). rewrite EM in M1.
  split.
  { revert A1. apply Forall_impl. intros q [B1 B2]. unfold same_horizon. rewrite T0, Tf, A2, A3. split; assumption. }
  rewrite P4, P5, P6, P7, P8, W1, W2, X0, Et, Po, To, A4, A5, A6, A7, A8, A9, A10, A11, A12, A13, A14.
  rewrite F0; cbn [o_eta o_p_opt o_theta_opt o_x_0 o_h o_h_initial o_h_final o_g_eq o_g_ineq o_when_eq o_when_ineq app].
  do 11 (split; [reflexivity|]).
  assert (Z : forall F env, eval F env (EConst 0) = 0%Q) by reflexivity.
  split; [|split; [|split]].
  - intros ls Hls. rewrite P1. destruct (W ls E5) as [V1 _]. destruct V1 as [e [V1 V2]]; [rewrite F0; reflexivity|exact Hls|].
    exists e. split; [exact V1|]. intros F env. rewrite V2, Z. ring.
  - intros ls Hls. rewrite P2. destruct (W ls E5) as [_ [V1 _]]. destruct V1 as [e [V1 V2]]; [rewrite F0; reflexivity|exact Hls|].
    exists e. split; [exact V1|]. intros F env. rewrite V2, Z. ring.
  - intros ls Hls. rewrite P3. destruct (W ls E5) as [_ [_ V1]]. destruct V1 as [e [V1 V2]]; [rewrite F0; reflexivity|exact Hls|].
    exists e. split; [exact V1|]. intros F env. rewrite V2, Z. ring.
  - assert (C : ctl_count (o_model o1)) by (apply (include_models_count (map o_model ps) (new_model t tau)); [reflexivity|exact M1]).
    destruct (connect_all _ (o_model o1) (o_model o) C C1) as [_ [B1 [_ [_ [_ [B5 [B6 [_ [_ B9]]]]]]]]].
    rewrite edge_inputs_all in B5, B6. split.
    + intros Hs. destruct (include_models_vectors _ _ _ (in_step_new t tau) Hs M1) as [D1 [_ [D3 [D4 _]]]]. simpl in D1, D3, D4.
      rewrite B1, B5, B6, D1, D3, D4. auto.
    + intros Hs Ho F env dx. rewrite (B9 F env dx).
      rewrite (include_models_solves F env dx _ _ _ (in_step_new t tau) Hs (own_times_new t tau _ Ho) M1).
      split.
      * intros [[_ K1] K2]. split; [exact K1|]. intros a b y u K. apply (K2 a b y u). apply edges_In, K.
      * intros [K1 K2]. split; [split; [apply solves_new|exact K1]|]. intros a b y u K. apply (K2 a b y u). apply edges_In, K.
Qed.

(** ** Initial conditions *)

Lemma one_value_ok : forall v vars vals q, one_value vals (find_syms [v] vars) = Ok q ->
    exists i, nth_error vars i = Some v /\ nth_error vals i = Some q.
Proof.
  intros v vars vals q H. destruct (find_syms [v] vars) as [|i [|]] eqn:E; [discriminate H| |discriminate H].
  cbn in H. destruct (nth_error vals i) as [q'|] eqn:Eq; [|discriminate H]. injection H as H. subst q'.
  exists i. split; [|exact Eq].
  assert (Hi : In i (find_syms [v] vars)) by (rewrite E; left; reflexivity).
  apply (find_indices_In _ eqb_ok) in Hi. destruct Hi as [w [[Hw|[]] Hn]]. subst w. exact Hn.
Qed.
Lemma find_none : forall v vars, find_syms [v] vars = [] -> ~ In v vars.
Proof.
  intros v vars H. refine (proj1 (find_indices_empty _ eqb_ok [v] vars) H v _). left; reflexivity.
Qed.
Lemma final_value_ok : forall m f v q, final_value m f v = Ok q -> final_in m f v q.
Proof.
  intros m [[fx fy] fu] v q H. unfold final_value in H. unfold final_in. cbn [fst snd].
  destruct (find_syms [v] (m_x m)) as [|i r] eqn:Ex.
  2: { left. apply one_value_ok. rewrite Ex. exact H. }
  apply find_none in Ex. right.
  destruct (find_syms [v] (m_y m)) as [|i r] eqn:Ey.
  2: { left. split; [exact Ex|]. apply one_value_ok. rewrite Ey. exact H. }
  apply find_none in Ey. right.
  destruct (find_syms [v] (m_u m)) as [|i r] eqn:Eu; [discriminate H|].
  split; [exact Ex|]. split; [exact Ey|]. apply one_value_ok. rewrite Eu. exact H.
Qed.
Lemma map_res_ok : forall (A B : Type) (f : A -> res B) l r, map_res f l = Ok r ->
    Forall2 (fun a b => f a = Ok b) l r.
Proof.
  intros A B f l. induction l as [|a l IH]; intros r H; cbn in H; [injection H as <-; constructor|].
  destruct (f a) as [b|] eqn:E; [|discriminate H]. destruct (map_res f l) as [r'|]; [|discriminate H].
  injection H as <-. constructor; [exact E|]. apply IH. reflexivity.
Qed.
Definition node_final (m : model) (f : list Q * list Q * list Q) (nm : model) (c : list Q * list Q * list Q) : Prop :=
  Forall2 (final_in m f) (m_x nm) (fst (fst c)) /\ Forall2 (final_in m f) (m_y nm) (snd (fst c)) /\
  Forall2 (final_in m f) (m_u nm) (snd c).
Lemma node_condition_ok : forall m f nm c, node_condition m f nm = Ok c -> node_final m f nm c.
Proof.
  intros m f nm c H. unfold node_condition in H.
  destruct (map_res (final_value m f) (m_x nm)) as [x|] eqn:Ex; [|discriminate H].
  destruct (map_res (final_value m f) (m_y nm)) as [y|] eqn:Ey; [|discriminate H].
  destruct (map_res (final_value m f) (m_u nm)) as [u|] eqn:Eu; [|discriminate H].
  injection H as <-. unfold node_final. cbn [fst snd].
  apply map_res_ok in Ex, Ey, Eu.
  split; [|split];
    match goal with |- Forall2 _ ?l ?r => match goal with K : Forall2 _ l r |- _ =>
      clear - K; induction K as [|a b l0 r0 Hab _ IH]; constructor; [apply final_value_ok; exact Hab|exact IH] end end.
Qed.
Lemma oname_ok : forall a b, oname_eqb a b = true <-> a = b.
Proof.
  intros [a|] [b|]; cbn; try (split; intros H; (reflexivity || discriminate H)).
  rewrite String.eqb_eq. split; intros H; [subst; reflexivity|injection H as H; exact H].
Qed.
Definition name_of (w : network) (a : addr) : option string :=
  match node_at w a with Some n => n_name n | None => None end.
Lemma condition_loop_ok : forall m f w l acc c, condition_loop m f w l acc = Ok c ->
    NoDup l ->
    (forall a b, In a l -> In b l -> name_of w a = name_of w b -> a = b) ->
    (forall a, In a l -> exists n nm v, nth_error (w_store w) a = Some n /\ n_model n = Some nm /\
       dget oname_eqb (n_name n) c = Some v /\ node_final m f nm v) /\
    (forall k, ~ In k (map (name_of w) l) -> dget oname_eqb k c = dget oname_eqb k acc).
Proof.
  intros m f w l. induction l as [|a l IH]; intros acc c H Hnd Hnames; cbn in H.
  { injection H as <-. split; [intros a []|reflexivity]. }
  destruct (node_at w a) as [n|] eqn:En; [|discriminate H].
  destruct (n_model n) as [nm|] eqn:Em; [|discriminate H].
  destruct (node_condition m f nm) as [v|] eqn:Ev; [|discriminate H].
  pose proof (NoDup_cons_iff a l) as Hc. apply Hc in Hnd. destruct Hnd as [Hna Hnd].
  assert (Ename : name_of w a = n_name n) by (unfold name_of; rewrite En; reflexivity).
  destruct (IH _ _ H Hnd) as [IH1 IH2].
  { intros x z Hx Hz. apply Hnames; right; assumption. }
  split.
  - intros b [Hb|Hb]; [subst b|exact (IH1 b Hb)].
    exists n, nm, v. split; [exact En|]. split; [exact Em|]. split; [|apply node_condition_ok; exact Ev].
    rewrite IH2; [apply (dget_dset_same _ oname_ok)|].
    rewrite <- Ename. intros Hin. apply in_map_iff in Hin. destruct Hin as [x [Hx Hxl]].
    apply Hna. rewrite <- (Hnames x a); [exact Hxl|right; exact Hxl|left; reflexivity|exact Hx].
  - intros k Hk. rewrite IH2; [|intros Hin; apply Hk; right; exact Hin].
    apply (dget_dset_other _ oname_ok). intros E. apply Hk. left. rewrite Ename. symmetry; exact E || exact E.
Qed.
Lemma condition_keys : forall m f w l acc c, condition_loop m f w l acc = Ok c ->
    forall k, In k (dkeys c) -> In k (dkeys acc) \/ exists a n, In a l /\ nth_error (w_store w) a = Some n /\ n_name n = k.
Proof.
  intros m f w l. induction l as [|a l IH]; intros acc c H k Hk; cbn in H.
  { injection H as <-. left; exact Hk. }
  destruct (node_at w a) as [n|] eqn:En; [|discriminate H].
  destruct (n_model n) as [nm|] eqn:Em; [|discriminate H].
  destruct (node_condition m f nm) as [v|] eqn:Ev; [|discriminate H].
  destruct (IH _ _ H k Hk) as [Ha|[b [n' [Hb R]]]].
  - assert (Hd : k = n_name n \/ In k (dkeys acc)).
    { clear - Ha. induction acc as [|[k0 v0] acc IHa]; cbn in Ha.
      - destruct Ha as [Ha|[]]. left; symmetry; exact Ha.
      - destruct (oname_eqb (n_name n) k0); cbn in Ha.
        + destruct Ha as [Ha|Ha]; [right; left; exact Ha|right; right; exact Ha].
        + destruct Ha as [Ha|Ha]; [right; left; exact Ha|].
          destruct (IHa Ha) as [E|E]; [left; exact E|right; right; exact E]. }
    destruct Hd as [Hd|Hd]; [|left; exact Hd].
    right. exists a, n. split; [left; reflexivity|]. split; [exact En|symmetry; exact Hd].
  - right. exists b, n'. split; [right; exact Hb|exact R].
Qed.

Lemma initial_conditions : forall integrate defaults F default t tau t_f made ops w c,
    built made ops w -> names_differ w ->
    get_initial_condition integrate defaults F default t tau t_f w = Ok c ->
    exists o s r f, get_problem t tau w = Ok o /\
      ocp_simulate integrate defaults F o None (TNum t_f) None None UNone [] None None None [] = Ok s /\
      result_of default (o_model o) (o_t_0 o) [t_f] (None, None, None) s = Ok r /\
      final_condition r = Ok f /\
      (forall a, in_network w a -> exists n nm vx vy vu,
         nth_error (w_store w) a = Some n /\ n_model n = Some nm /\
         dget oname_eqb (n_name n) c = Some (vx, vy, vu) /\
         Forall2 (final_in (o_model o) f) (m_x nm) vx /\ Forall2 (final_in (o_model o) f) (m_y nm) vy /\
         Forall2 (final_in (o_model o) f) (m_u nm) vu) /\
      (forall k, In k (dkeys c) ->
         exists a n, in_network w a /\ nth_error (w_store w) a = Some n /\ n_name n = k).
Proof.
  intros integrate defaults F default t tau t_f made ops w c Hb Hnames H. unfold get_initial_condition in H.
  destruct (get_problem t tau w) as [o|] eqn:Eo; [|discriminate H].
  destruct (ocp_simulate integrate defaults F o None (TNum t_f) None None UNone [] None None None []) as [s|] eqn:Es;
    [|discriminate H].
  destruct (result_of default (o_model o) (o_t_0 o) [t_f] (None, None, None) s) as [r|] eqn:Er; [|discriminate H].
  destruct (final_condition r) as [f|] eqn:Ef; [|discriminate H].
  exists o, s, r, f. do 4 (split; [assumption || reflexivity|]).
  pose proof (directed_reached made ops w Hb) as [Hnd _].
  pose proof (addrs_reached made ops w Hb) as Hmade.
  assert (Hex : forall a, in_network w a -> exists n, nth_error (w_store w) a = Some n).
  { intros a Ha. destruct (nth_error (w_store w) a) as [n|] eqn:En; [exists n; reflexivity|].
    apply nth_error_None in En. pose proof (Hmade a Ha) as Hl. unfold addr in *. lia. }
  split.
  - destruct (condition_loop_ok _ _ _ _ _ _ H Hnd) as [R _].
    + intros a b Ha Hb' E. destruct (Hex a Ha) as [na Ena]. destruct (Hex b Hb') as [nb Enb].
      apply (Hnames a b na nb Ha Hb' Ena Enb). unfold name_of, node_at in E.
      assert (Ea : match nth_error (w_store w) a with Some n => n_name n | None => None end = n_name na) by (rewrite Ena; reflexivity).
      assert (Ebb : match nth_error (w_store w) b with Some n => n_name n | None => None end = n_name nb) by (rewrite Enb; reflexivity).
      exact (eq_trans (eq_sym Ea) (eq_trans E Ebb)).
    + intros a Ha. destruct (R a Ha) as [n [nm [[[vx vy] vu] [H1 [H2 [H3 [H4 [H5 H6]]]]]]]].
      exists n, nm, vx, vy, vu. cbn [fst snd] in *. tauto.
  - intros k Hk. destruct (condition_keys _ _ _ _ _ _ H k Hk) as [[]|[a [n [Ha [En E]]]]].
    exists a, n. tauto.
Qed.

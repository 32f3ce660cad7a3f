From Coq Require Import String Permutation Sorted.
From Verif Require Import Base BaseProofs UtilModel UtilProofs ExprModel NlpModel SysModel SysSpec
  SysProofs SysCtlProofs SysMergeProofs SimModel OcpModel OcpSpec OcpProofs DataModel NetModel NetSpec NetProofs.
Local Open Scope list_scope.

(** ** The model of an intermediary node *)

Definition rest_same (m m' : model) : Prop :=
  m_x m' = m_x m /\ m_p m' = m_p m /\ m_theta m' = m_theta m /\
  m_alg m' = m_alg m /\ m_ode m' = m_ode m /\ m_x_0 m' = m_x_0 m.

Lemma each_control : forall l m, exists m',
    each (fun s => include_control [s]) l m = (m', Ok tt) /\
    m_u m' = m_u m ++ l /\ m_y m' = m_y m /\ rest_same m m'.
Proof.
  intros l; induction l as [|s l IH]; intros m; cbn [each].
  - exists m. rewrite app_nil_r. repeat split.
  - unfold cbind at 1.
    assert (E1 : include_control [s] m = (set_u_par (m_u_par m ++ [s]) (set_u_expr (m_u_expr m ++ [EVar s]) (set_u (m_u m ++ [s]) m)), Ok tt)) by reflexivity.
    rewrite E1. match goal with |- context [each _ l ?M] => destruct (IH M) as [m' [E [H1 [H2 H3]]]] end.
    exists m'. split; [exact E|]. cbn in H1, H2. rewrite <- app_assoc in H1. split; [exact H1|]. split; [exact H2|exact H3].
Qed.

Lemma each_algebraic : forall l m, exists m',
    each (fun s => include_algebraic [s] None) l m = (m', Ok tt) /\
    m_u m' = m_u m /\ m_y m' = m_y m ++ l /\ rest_same m m'.
Proof.
  intros l; induction l as [|s l IH]; intros m; cbn [each].
  - exists m. rewrite app_nil_r. repeat split.
  - unfold cbind at 1.
    assert (E1 : include_algebraic [s] None m = (set_y (m_y m ++ [s]) m, Ok tt)) by reflexivity.
    rewrite E1. match goal with |- context [each _ l ?M] => destruct (IH M) as [m' [E [H1 [H2 H3]]]] end.
    exists m'. split; [exact E|]. cbn in H1, H2. rewrite <- app_assoc in H2. split; [exact H1|]. split; [exact H2|exact H3].
Qed.

Lemma dummy_model_facts : forall t tau du dy alg,
    zip_vec OSub (map EVar du) (map EVar dy) = Ok alg ->
    exists m, dummy_model t tau du dy = Ok m /\
      m_u m = du /\ m_y m = dy /\ m_x m = [] /\ m_p m = [] /\ m_theta m = [] /\ m_alg m = alg /\
      m_ode m = [] /\ m_x_0 m = [].
Proof.
  intros t tau du dy alg E. unfold dummy_model. rewrite E.
  destruct (each_control du (new_model t tau)) as [m1 [E1 [A1 [A2 A3]]]].
  destruct (each_algebraic dy m1) as [m2 [E2 [B1 [B2 B3]]]].
  unfold cbind at 1. rewrite E1. unfold cbind at 1. rewrite E2.
  assert (E3 : include_equations [] None None (Some alg) m2 = (set_alg (m_alg m2 ++ alg ++ []) m2, Ok tt)) by reflexivity.
  rewrite E3. eexists. split; [reflexivity|].
  destruct A3 as [A3 [A4 [A5 [A6 [A7 A8]]]]]. destruct B3 as [B3 [B4 [B5 [B6 [B7 B8]]]]].
  fields. rewrite B1, A1, B2, A2, B3, A3, B4, A4, B5, A5, B6, A6, B7, A7, B8, A8, app_nil_r. simpl. repeat split; reflexivity.
Qed.

Lemma dummy_model_inv : forall t tau du dy m, dummy_model t tau du dy = Ok m ->
    exists alg, zip_vec OSub (map EVar du) (map EVar dy) = Ok alg /\
      m_u m = du /\ m_y m = dy /\ m_x m = [] /\ m_p m = [] /\ m_theta m = [] /\ m_alg m = alg /\
      m_ode m = [] /\ m_x_0 m = [].
Proof.
  intros t tau du dy m H. destruct (zip_vec OSub (map EVar du) (map EVar dy)) as [alg|e] eqn:E.
  - exists alg. split; [reflexivity|]. destruct (dummy_model_facts t tau du dy alg E) as [m' [E' K]].
    rewrite E' in H. injection H as <-. exact K.
  - unfold dummy_model in H. rewrite E in H. discriminate.
Qed.

Lemma dummy_solves : forall F env dx t tau du dy m, length du = length dy ->
    dummy_model t tau du dy = Ok m -> (solves F env dx m <-> agree env du dy).
Proof.
  intros F env dx t tau du dy m L H. apply dummy_model_inv in H. destruct H as [alg [E [_ [_ [_ [_ [_ [Ea [Eo _]]]]]]]]].
  unfold zip_vec in E. rewrite !map_length, L, Nat.eqb_refl in E. injection E as <-.
  unfold solves. rewrite Eo, Ea. clear Ea Eo. revert dy L. induction du as [|c du IH]; intros [|d dy] L; simpl in *; try discriminate.
  - split; [intros _; constructor|intros _; split; [intros s e []|intros e []]].
  - injection L as L. split.
    + intros [_ K]. constructor.
      * specialize (K _ (or_introl eq_refl)). simpl in K. apply (Qplus_inj_r _ _ (- env d)%Q). rewrite Qplus_opp_r. exact K.
      * apply IH; [exact L|]. split; [intros s e []|]. intros e He. apply K. right. exact He.
    + intros K. inversion K; subst. split; [intros s e []|]. intros e [<-|He].
      * simpl. rewrite H2. apply Qplus_opp_r.
      * apply IH in H4; [|exact L]. apply H4, He.
Qed.

(** ** Inserting one node *)

Definition addrs_made (w : network) : Prop := forall a, In a (dkeys (w_graph w)) -> (a < length (w_store w))%nat.

Lemma insert_ok : forall y u a b w w',
    directed_graph (w_graph w) -> addrs_made w -> insert_intermediary_node y u a b w = (w', Ok tt) ->
    exists na nb p m q,
      nth_error (w_store w) a = Some na /\ nth_error (w_store w) b = Some nb /\ n_problem na = Some p /\
      y <> [] /\ u <> [] /\
      let n := length (w_store w) in
      let c := w_fresh w in
      let du := seq (c + 2) (length y) in
      let dy := seq (c + 2 + length y) (length u) in
      dummy_model c (c + 1) du dy = Ok m /\ new_ocp m None 0%Q (o_t_f p) = Ok q /\
      w_store w' = w_store w ++ [mkNode (Some (dummy_name (n_name na) (n_name nb))) (Some (w_count w)) (Some m) (Some q)] /\
      w_count w' = (w_count w + 1)%Z /\ w_fresh w' = (c + 2 + length y + length u)%nat /\ w_inter w' = w_inter w /\
      w_graph w' = add_edge n b (dy, u) (add_edge a n (y, du) (add_node n (w_graph w))).
Proof.
  intros y u a b w w' D Hst H. unfold insert_intermediary_node, node_at in H.
  destruct (nth_error (w_store w) a) as [na|] eqn:Ea; [|discriminate].
  destruct (nth_error (w_store w) b) as [nb|] eqn:Eb; [|discriminate].
  destruct y as [|y1 y0]; [discriminate|]. destruct u as [|u1 u0]; [discriminate|].
  set (y := y1 :: y0) in *. set (u := u1 :: u0) in *. cbv zeta in H.
  destruct (dummy_model _ _ _ _) as [m|e] eqn:Em; [|discriminate].
  destruct (n_problem na) as [p|] eqn:Ep; [|discriminate].
  destruct (new_ocp m None 0 (o_t_f p)) as [q|e] eqn:Eq; [|discriminate].
  exists na, nb, p, m, q. split; [reflexivity|]. split; [reflexivity|]. split; [exact Ep|].
  split; [discriminate|]. split; [discriminate|]. cbv zeta. split; [exact Em|]. split; [exact Eq|].
  unfold new_node in H.
  unfold cbind, cmodify, create_node, make_node, include_nodes, raw_connect, cmodify, cret, cbind in H.
  cbn [run_all] in H. unfold give_id, node_at in H. cbn [set_w_store set_w_fresh w_store w_graph w_count w_fresh w_inter] in H.
  rewrite nth_error_app2 in H by lia. rewrite Nat.sub_diag in H. cbn [nth_error n_id] in H.
  cbn [set_w_store set_w_fresh set_w_count set_w_graph w_store w_graph w_count w_fresh w_inter add_nodes_from fold_left] in H.
  set (n := length (w_store w)) in *.
  assert (Hn : ~ In n (dkeys (w_graph w))) by (intros K; apply Hst in K; unfold n in K; lia).
  assert (La : (a < n)%nat) by (apply nth_error_Some; congruence).
  assert (Lb : (b < n)%nat) by (apply nth_error_Some; congruence).
  assert (E1 : edge (add_node n (w_graph w)) a n = None).
  { rewrite edge_add_node. unfold edge. apply (dget_None _ eqb_ok). intros K. apply Hn. apply (proj2 (succs_directed _ a D)), K. }
  rewrite E1 in H.
  cbn [set_w_store set_w_fresh set_w_count set_w_graph w_store w_graph w_count w_fresh w_inter app] in H.
  rewrite edge_add_edge in H.
  assert (Ena : Nat.eqb n a = false) by (apply Nat.eqb_neq; lia). rewrite Ena in H. cbn [andb] in H.
  assert (E2 : edge (add_node n (w_graph w)) n b = None).
  { rewrite edge_add_node. unfold edge, succs. destruct (dget Nat.eqb n (w_graph w)) as [d|] eqn:Ed; [|reflexivity].
    exfalso. apply Hn. apply (dget_In _ eqb_ok) in Ed. apply in_map_iff. exists (n, d). auto. }
  rewrite E2 in H. cbn [app fst snd] in H. injection H as <-.
  cbn [w_store w_count w_fresh w_inter w_graph]. split; [|repeat split].
  clear. unfold n. induction (w_store w) as [|x l IH]; simpl; [reflexivity|]. f_equal. exact IH.
Qed.

Lemma insert_total : forall y u a b w na nb p,
    nth_error (w_store w) a = Some na -> nth_error (w_store w) b = Some nb -> n_problem na = Some p ->
    y <> [] -> length u = length y -> snd (insert_intermediary_node y u a b w) = Ok tt.
Proof.
  intros y u a b w na nb p Ea Eb Ep Hy L. unfold insert_intermediary_node, node_at. rewrite Ea, Eb.
  destruct y as [|y1 y0]; [congruence|]. destruct u as [|u1 u0]; [discriminate|].
  set (y := y1 :: y0) in *. set (u := u1 :: u0) in *. cbv zeta.
  set (du := seq (w_fresh w + 2) (length y)). set (dy := seq (w_fresh w + 2 + length y) (length u)).
  assert (Z : exists alg, zip_vec OSub (map EVar du) (map EVar dy) = Ok alg).
  { unfold zip_vec. unfold du, dy. rewrite !map_length, !seq_length, L, Nat.eqb_refl. eauto. }
  destruct Z as [alg Z].
  destruct (dummy_model_facts (w_fresh w) (w_fresh w + 1) du dy alg Z) as [m [Em [_ [_ [Ex [_ [_ [_ [_ Ex0]]]]]]]]].
  rewrite Em, Ep. unfold new_ocp. rewrite Ex, Ex0.
  change (zip_vec OSub (map EVar []) (map EVar [])) with (Ok (A := list expr) []).
  unfold cbind at 1, cmodify. unfold cbind at 1.
  match goal with |- context [create_node ?n ?W] => destruct (create_node_run n W) as [w2 E2] end.
  rewrite E2. reflexivity.
Qed.

Record chain (w0 : network) (es : list (addr * addr * conn)) (w : network) : Prop := mkChain
  { ch_directed : directed_graph (w_graph w);
    ch_made : addrs_made w;
    ch_store : exists news, w_store w = w_store w0 ++ news /\ length news = length es;
    ch_fresh : (w_fresh w0 <= w_fresh w)%nat;
    ch_path : forall k a b y u, nth_error es k = Some (a, b, (y, u)) ->
      exists n m c du dy, nth_error (w_store w) (length (w_store w0) + k) = Some n /\ n_model n = Some m /\
        dummy_model c (c + 1) du dy = Ok m /\ length du = length y /\ length dy = length u /\
        NoDup (du ++ dy) /\ (forall s, In s (du ++ dy) -> (w_fresh w0 <= s < w_fresh w)%nat) /\
        edge (w_graph w) a (length (w_store w0) + k) = Some (y, du) /\
        edge (w_graph w) (length (w_store w0) + k) b = Some (dy, u);
    ch_only : forall x z c, edge (w_graph w) x z = Some c ->
      exists k a b y u, nth_error es k = Some (a, b, (y, u)) /\
        ((x = a /\ z = (length (w_store w0) + k)%nat) \/ (x = (length (w_store w0) + k)%nat /\ z = b));
    ch_nodes : forall x, In x (dkeys (w_graph w)) <->
      exists k a b c, nth_error es k = Some (a, b, c) /\
        (x = a \/ x = b \/ x = (length (w_store w0) + k)%nat) }.

Lemma nth_snoc : forall (A : Type) (l : list A) a k x,
    nth_error (l ++ [a]) k = Some x <-> nth_error l k = Some x \/ (k = length l /\ x = a).
Proof.
  intros A l a k x. destruct (Nat.lt_ge_cases k (length l)) as [L|L].
  - rewrite nth_error_app1 by exact L. split; [auto|]. intros [H|[-> _]]; [exact H|lia].
  - rewrite nth_error_app2 by exact L. rewrite (proj2 (nth_error_None l k) L).
    destruct (Nat.eq_dec k (length l)) as [->|N].
    + rewrite Nat.sub_diag. simpl. split; [intros H; injection H as <-; auto|]. intros [H|[_ ->]]; [discriminate|reflexivity].
    + destruct (k - length l)%nat as [|j] eqn:E; [lia|]. simpl. destruct j; split; try discriminate; intros [H|[H _]]; congruence.
Qed.

Lemma chain_step : forall w0 es w a b y u w',
    (a < length (w_store w0))%nat -> (b < length (w_store w0))%nat ->
    chain w0 es w -> insert_intermediary_node y u a b w = (w', Ok tt) ->
    chain w0 (es ++ [(a, b, (y, u))]) w'.
Proof.
  intros w0 es w a b y u w' La Lb C H. destruct C as [D M [news [Es Ln]] Fr Pa On No].
  apply insert_ok in H; [|exact D|exact M].
  destruct H as [na [nb [p [m [q [Ea [Eb [Ep [Hy [Hu H]]]]]]]]]]. cbv zeta in H.
  set (n := length (w_store w)) in *. set (c := w_fresh w) in *.
  set (du := seq (c + 2) (length y)) in *. set (dy := seq (c + 2 + length y) (length u)) in *.
  destruct H as [Em [Eq [St [_ [Fr' [_ Gr]]]]]].
  assert (En : n = (length (w_store w0) + length es)%nat) by (unfold n; rewrite Es, app_length, Ln; reflexivity).
  assert (Hn : ~ In n (dkeys (w_graph w))) by (intros K; apply M in K; unfold n in K; lia).
  assert (Edge : forall x z, edge (w_graph w') x z =
      if (Nat.eqb x n && Nat.eqb z b)%bool then Some (dy, u)
      else if (Nat.eqb x a && Nat.eqb z n)%bool then Some (y, du) else edge (w_graph w) x z).
  { intros x z. rewrite Gr, !edge_add_edge, edge_add_node. reflexivity. }
  assert (Keys : forall x, In x (dkeys (w_graph w')) <-> x = a \/ x = b \/ x = n \/ In x (dkeys (w_graph w))).
  { intros x. rewrite Gr, add_edge_keys, !add_node_In, add_edge_keys, !add_node_In. tauto. }
  constructor.
  - rewrite Gr. apply directed_add_edge, directed_add_edge, directed_add_node, D.
  - intros x Hx. apply Keys in Hx. rewrite St, app_length. simpl. fold n.
    destruct Hx as [->|[->|[->|Hx]]]; try lia. apply M in Hx. fold n in Hx. lia.
  - exists (news ++ [mkNode (Some (dummy_name (n_name na) (n_name nb))) (Some (w_count w)) (Some m) (Some q)]).
    split; [rewrite St, Es, <- app_assoc; reflexivity|]. rewrite !app_length, Ln. reflexivity.
  - rewrite Fr'. unfold c. lia.
  - intros k a1 b1 y1 u1 Hk. apply (nth_snoc (addr * addr * conn)) in Hk. destruct Hk as [Hk|[-> Hk]].
    + destruct (Pa k a1 b1 y1 u1 Hk) as [n1 [m1 [c1 [du1 [dy1 [P1 [P2 [P3 [P4 [P5 [P6 [P7 [P8 P9]]]]]]]]]]]]].
      assert (Lk : (length (w_store w0) + k < n)%nat).
      { rewrite En. apply Nat.add_lt_mono_l. apply (proj1 (nth_error_Some es k)). intros K. pose proof (eq_trans (eq_sym Hk) K). discriminate. }
      exists n1, m1, c1, du1, dy1. split; [rewrite St, nth_error_app1 by exact Lk; exact P1|].
      split; [exact P2|]. split; [exact P3|]. split; [exact P4|]. split; [exact P5|]. split; [exact P6|]. split.
      { intros s Hs. apply P7 in Hs. rewrite Fr'. fold c in Hs. lia. }
      split; rewrite Edge.
      * assert (Nat.eqb a1 n = false) as ->.
        { apply Nat.eqb_neq. intros ->. apply Hn. apply No. exists k, n, b1, (y1, u1). auto. }
        assert (Nat.eqb (length (w_store w0) + k) n = false) as -> by (apply Nat.eqb_neq; lia).
        rewrite andb_false_r. exact P8.
      * assert (Nat.eqb (length (w_store w0) + k) n = false) as -> by (apply Nat.eqb_neq; lia).
        assert (Nat.eqb b1 n = false) as ->.
        { apply Nat.eqb_neq. intros ->. apply Hn. apply No. exists k, a1, n, (y1, u1). auto. }
        rewrite andb_false_r. exact P9.
    + injection Hk as -> -> -> ->. rewrite <- En.
      exists (mkNode (Some (dummy_name (n_name na) (n_name nb))) (Some (w_count w)) (Some m) (Some q)), m, c, du, dy.
      split; [rewrite St, nth_error_app2 by (unfold n; lia); unfold n; rewrite Nat.sub_diag; reflexivity|].
      split; [reflexivity|]. split; [exact Em|].
      split; [unfold du; apply seq_length|]. split; [unfold dy; apply seq_length|].
      split.
      { unfold du, dy. apply NoDup_app_intro; [apply seq_NoDup|apply seq_NoDup|]. intros s K1 K2. apply in_seq in K1. apply in_seq in K2. lia. }
      split.
      { intros s Hs. rewrite Fr'. apply in_app_iff in Hs. fold c in Fr. destruct Hs as [Hs|Hs]; apply in_seq in Hs; lia. }
      split; rewrite Edge, ?Nat.eqb_refl.
      * assert (Nat.eqb a n = false) as -> by (apply Nat.eqb_neq; lia). reflexivity.
      * reflexivity.
  - intros x z c0 Hx. rewrite Edge in Hx.
    destruct (Nat.eqb x n && Nat.eqb z b)%bool eqn:E1.
    + apply andb_true_iff in E1. destruct E1 as [E1 E2]. apply Nat.eqb_eq in E1. apply Nat.eqb_eq in E2. subst x z.
      exists (length es), a, b, y, u. split; [apply nth_snoc; auto|]. right. auto.
    + destruct (Nat.eqb x a && Nat.eqb z n)%bool eqn:E2.
      * apply andb_true_iff in E2. destruct E2 as [E2 E3]. apply Nat.eqb_eq in E2. apply Nat.eqb_eq in E3. subst x z.
        exists (length es), a, b, y, u. split; [apply nth_snoc; auto|]. left. auto.
      * destruct (On x z c0 Hx) as [k [a1 [b1 [y1 [u1 [K1 K2]]]]]]. exists k, a1, b1, y1, u1. split; [apply nth_snoc; auto|exact K2].
  - intros x. rewrite Keys, No. split.
    + intros [->|[->|[->|[k [a1 [b1 [c1 [K1 K2]]]]]]]].
      * exists (length es), a, b, (y, u). split; [apply nth_snoc; auto|auto].
      * exists (length es), a, b, (y, u). split; [apply nth_snoc; auto|auto].
      * exists (length es), a, b, (y, u). split; [apply nth_snoc; auto|auto].
      * exists k, a1, b1, c1. split; [apply nth_snoc; auto|exact K2].
    + intros [k [a1 [b1 [c1 [K1 K2]]]]]. apply (nth_snoc (addr * addr * conn)) in K1. destruct K1 as [K1|[-> K1]].
      * right. right. right. exists k, a1, b1, c1. auto.
      * injection K1 as -> -> ->. rewrite <- En in K2. tauto.
Qed.

Definition insert_step (e : addr * addr * conn) : cmd network unit :=
  let '(a, b, (y, u)) := e in insert_intermediary_node y u a b.

Lemma chain_run : forall w0 (rest es : list (addr * addr * conn)) w w',
    Forall (fun e => (fst (fst e) < length (w_store w0))%nat /\ (snd (fst e) < length (w_store w0))%nat) rest ->
    chain w0 es w -> run_all insert_step rest w = (w', Ok tt) -> chain w0 (es ++ rest) w'.
Proof.
  intros w0 rest; induction rest as [|[[a b] [y u]] rest IH]; intros es w w' Hr C H; cbn [run_all] in H.
  - injection H as <-. rewrite app_nil_r. exact C.
  - inversion Hr as [|? ? [La Lb] Hr']; subst. unfold insert_step at 1 in H.
    destruct (insert_intermediary_node y u a b w) as [w1 [[]|e]] eqn:E; [|discriminate].
    pose proof (chain_step w0 es w a b y u w1 La Lb C E) as C1.
    pose proof (IH _ w1 w' Hr' C1 H) as K. rewrite <- app_assoc in K. exact K.
Qed.

Lemma chain_start : forall w, chain w [] (set_w_graph [] w).
Proof.
  intros w. constructor.
  - apply directed_nil.
  - intros a [].
  - exists []. rewrite app_nil_r. auto.
  - simpl. lia.
  - intros [|k] a b y u H; discriminate.
  - intros x z c H. discriminate.
  - intros x. split; [intros []|]. intros [[|k] [a [b [c [H _]]]]]; discriminate.
Qed.

Lemma edges_made : forall w, directed_graph (w_graph w) -> addrs_made w ->
    Forall (fun e => (fst (fst e) < length (w_store w))%nat /\ (snd (fst e) < length (w_store w))%nat) (edges (w_graph w)).
Proof.
  intros w D M. apply Forall_forall. intros [[a b] [y u]] H. apply edges_In in H. simpl.
  destruct D as [_ D]. destruct H as [d [Hd Hb]]. split; apply M.
  - apply in_map_iff. exists (a, d). auto.
  - apply (proj2 (D a d Hd)). apply in_map_iff. exists (b, (y, u)). auto.
Qed.

Lemma chain_all : forall w w', directed_graph (w_graph w) -> addrs_made w ->
    insert_intermediary_nodes w = (w', Ok tt) -> chain w (edges (w_graph w)) w'.
Proof.
  intros w w' D M H. apply (chain_run w (edges (w_graph w)) [] (set_w_graph [] w)).
  - apply edges_made; assumption.
  - apply chain_start.
  - exact H.
Qed.

(** Endpoints are pairwise different. *)
Lemma edges_endpoints : forall g, directed_graph g -> NoDup (map fst (edges g)).
Proof.
  intros g [H1 H2]. assert (H2' : forall a d, In (a, d) g -> NoDup (map fst d)) by (intros a d K; apply (H2 a d K)). clear H2.
  unfold edges. induction g as [|[a d] g IH]; simpl; [constructor|].
  inversion H1; subst. rewrite map_app. apply NoDup_app_intro.
  - rewrite map_map. simpl. specialize (H2' a d (or_introl eq_refl)). revert H2'.
    clear. induction d as [|[b c] d IH]; simpl; intros H; [constructor|]. inversion H; subst. constructor; [|apply IH; assumption].
    intros K. apply in_map_iff in K. destruct K as [[b' c'] [E K]]. simpl in E. injection E as ->. apply H2.
    apply in_map_iff. exists (b, c'). auto.
  - apply IH; [assumption|]. intros x e K. apply (H2' x e). right. exact K.
  - intros [x z] K1 K2. apply in_map_iff in K1. destruct K1 as [[[x1 z1] c1] [E1 K1]]. simpl in E1. injection E1 as -> ->.
    apply in_map_iff in K1. destruct K1 as [[b0 c0] [E0 K1]]. injection E0 as -> -> ->.
    apply in_map_iff in K2. destruct K2 as [[[x2 z2] c2] [E2 K2]]. simpl in E2. injection E2 as -> ->.
    apply in_flat_map in K2. destruct K2 as [[a' d'] [K3 K4]]. apply in_map_iff in K4. destruct K4 as [[b4 c4] [E4 K4]].
    simpl in E4. injection E4 as -> -> ->. apply H2. apply in_map_iff. exists (x, d'). auto.
Qed.


(** ** Values for the new variables *)

Definition extends (w0 : network) (es : list (addr * addr * conn)) (w : network) : Prop :=
  forall env, (forall a b y u, In (a, b, (y, u)) es ->
                 agree env u y /\ forall s, In s (y ++ u) -> (s < w_fresh w0)%nat) ->
  exists env', (forall s, (s < w_fresh w0)%nat -> env' s = env s) /\
    (forall x z y u, edge (w_graph w) x z = Some (y, u) -> agree env' u y) /\
    (forall k n m, (k < length es)%nat -> nth_error (w_store w) (length (w_store w0) + k) = Some n ->
       n_model n = Some m -> agree env' (m_u m) (m_y m)).

Lemma Forall2_impl_in : forall (A B : Type) (P R : A -> B -> Prop) l l',
    Forall2 P l l' -> (forall a b, In a l -> In b l' -> P a b -> R a b) -> Forall2 R l l'.
Proof.
  intros A B P R l l' H. induction H as [|a b l l' Hab H IH]; intros K; [constructor|].
  constructor; [apply K; simpl; auto|]. apply IH. intros c d Hc Hd. apply K; simpl; auto.
Qed.

Lemma assign_map : forall env v l (g : sym -> Q), NoDup v -> length v = length l ->
    Forall2 (fun s x => assign env v (map g l) s = g x) v l.
Proof.
  intros env v; induction v as [|a v IH]; intros [|b l] g Hn L; simpl in *; try discriminate; [constructor|].
  injection L as L. inversion Hn; subst. constructor.
  - destruct (Nat.eq_dec a a); congruence.
  - specialize (IH l g H2 L). revert IH. generalize (map g l) as q. intros q IH.
    apply (Forall2_impl_in _ _ _ _ v l IH). intros s x Hs _ Hx. destruct (Nat.eq_dec s a) as [->|]; [contradiction|exact Hx].
Qed.

Lemma agree_sym : forall env u y, agree env u y -> agree env y u.
Proof.
  intros env u y H. induction H; constructor; [symmetry; assumption|assumption].
Qed.

Lemma agree_trans : forall env u y z, agree env u y -> agree env y z -> agree env u z.
Proof.
  intros env u y z H. revert z. induction H as [|a b u y Hab H IH]; intros z K; inversion K; subst; constructor.
  - rewrite Hab. assumption.
  - apply IH. assumption.
Qed.

Lemma agree_ext : forall env env' u y, (forall s, In s (y ++ u) -> env' s = env s) ->
    agree env u y -> agree env' u y.
Proof.
  intros env env' u y E H. apply (Forall2_impl_in _ _ _ _ u y H). intros a b Ha Hb K.
  rewrite !E; [exact K| |]; apply in_app_iff; auto.
Qed.

Lemma extends_step : forall w0 es w a b y u w',
    (a < length (w_store w0))%nat -> (b < length (w_store w0))%nat ->
    chain w0 es w -> extends w0 es w -> insert_intermediary_node y u a b w = (w', Ok tt) ->
    extends w0 (es ++ [(a, b, (y, u))]) w'.
Proof.
  intros w0 es w a b y u w' La Lb C X H env Henv.
  assert (He1 : forall a0 b0 y0 u0, In (a0, b0, (y0, u0)) es ->
            agree env u0 y0 /\ forall s, In s (y0 ++ u0) -> (s < w_fresh w0)%nat).
  { intros a0 b0 y0 u0 K. apply (Henv a0 b0). apply in_app_iff. auto. }
  destruct (Henv a b y u) as [Hag Hs]; [apply in_app_iff; simpl; auto|].
  destruct (X env He1) as [env1 [X1 [X2 X3]]].
  destruct C as [D M [news [Es Ln]] Fr Pa On No].
  apply insert_ok in H; [|exact D|exact M].
  destruct H as [na [nb [p [m [q [Ea [Eb [Ep [Hy [Hu H]]]]]]]]]]. cbv zeta in H.
  set (n := length (w_store w)) in *. set (c := w_fresh w) in *.
  set (du := seq (c + 2) (length y)) in *. set (dy := seq (c + 2 + length y) (length u)) in *.
  destruct H as [Em [Eq [St [_ [Fr' [_ Gr]]]]]].
  assert (En : n = (length (w_store w0) + length es)%nat) by (unfold n; rewrite Es, app_length, Ln; reflexivity).
  set (env2 := assign env1 du (map env1 y)). set (env3 := assign env2 dy (map env1 u)).
  assert (Hdu : forall s, In s du -> (c <= s)%nat /\ (s < c + 2 + length y)%nat) by (intros s K; apply in_seq in K; lia).
  assert (Hdy : forall s, In s dy -> (c + 2 + length y <= s)%nat) by (intros s K; apply in_seq in K; lia).
  assert (Old : forall s, (s < c)%nat -> env3 s = env1 s).
  { intros s K. unfold env3, env2. rewrite !assign_notin; [reflexivity| |].
    - intros I1. apply Hdu in I1. lia.
    - intros I1. apply Hdy in I1. lia. }
  assert (Hc : (w_fresh w0 <= c)%nat) by exact Fr.
  assert (A1 : agree env3 du y).
  { pose proof (assign_map env1 du y env1 (seq_NoDup _ _) (seq_length _ _)) as K.
    apply (Forall2_impl_in _ _ _ _ du y K). intros s x Is Ix E.
    assert (E3 : env3 s = env2 s) by (unfold env3; apply assign_notin; intros I1; apply Hdy in I1; apply Hdu in Is; lia).
    assert (E4 : env2 s = env1 x) by exact E. rewrite E3, E4.
    assert (I2 : (x < c)%nat) by (assert (x < w_fresh w0)%nat by (apply Hs; apply in_app_iff; auto); lia).
    rewrite (Old x I2). reflexivity. }
  assert (A2 : agree env3 dy u).
  { pose proof (assign_map env2 dy u env1 (seq_NoDup _ _) (seq_length _ _)) as K.
    apply (Forall2_impl_in _ _ _ _ dy u K). intros s x Is Ix E. assert (E4 : env3 s = env1 x) by exact E. rewrite E4.
    assert (I2 : (x < c)%nat) by (assert (x < w_fresh w0)%nat by (apply Hs; apply in_app_iff; auto); lia).
    rewrite (Old x I2). reflexivity. }
  assert (A3 : agree env3 u y).
  { apply (agree_ext env); [|exact Hag]. intros s K. apply Hs in K. rewrite (Old s) by lia. apply X1, K. }
  exists env3. split; [|split].
  - intros s K. rewrite (Old s) by lia. apply X1, K.
  - intros x z y1 u1 K. rewrite Gr, !edge_add_edge, edge_add_node in K.
    destruct (Nat.eqb x n && Nat.eqb z b)%bool; [injection K as <- <-; apply agree_sym, A2|].
    destruct (Nat.eqb x a && Nat.eqb z n)%bool; [injection K as <- <-; exact A1|].
    apply (agree_ext env1); [|apply (X2 x z), K].
    intros s Is. apply Old.
    destruct (On x z _ K) as [k [a1 [b1 [y2 [u2 [K1 K2]]]]]].
    destruct (Pa k a1 b1 y2 u2 K1) as [n1 [m1 [c1 [du1 [dy1 [_ [_ [_ [_ [_ [_ [P7 [P8 P9]]]]]]]]]]]]].
    pose proof (He1 a1 b1 y2 u2 (nth_error_In _ _ K1)) as [_ Hs1].
    destruct K2 as [[-> ->]|[-> ->]].
    + rewrite P8 in K. injection K as <- <-. apply in_app_iff in Is. destruct Is as [Is|Is].
      * assert (s < w_fresh w0)%nat by (apply Hs1; apply in_app_iff; auto). lia.
      * apply P7. apply in_app_iff. auto.
    + rewrite P9 in K. injection K as <- <-. apply in_app_iff in Is. destruct Is as [Is|Is].
      * apply P7. apply in_app_iff. auto.
      * assert (s < w_fresh w0)%nat by (apply Hs1; apply in_app_iff; auto). lia.
  - intros k n1 m1 Lk K1 K2. rewrite app_length in Lk. simpl in Lk.
    destruct (Nat.eq_dec k (length es)) as [Ek|Nk].
    + subst k. rewrite <- En, St in K1. rewrite nth_error_app2 in K1 by (unfold n; lia). unfold n in K1. rewrite Nat.sub_diag in K1.
      injection K1 as <-. simpl in K2. injection K2 as <-.
      apply dummy_model_inv in Em. destruct Em as [alg [_ [-> [-> _]]]].
      apply (agree_trans _ _ y); [exact A1|]. apply (agree_trans _ _ u); [apply agree_sym, A3|apply agree_sym, A2].
    + assert (Lk' : (k < length es)%nat) by lia.
      rewrite St, nth_error_app1 in K1 by (fold n; lia).
      apply (agree_ext env1); [|apply (X3 k n1 m1 Lk' K1 K2)].
      intros s Is. apply Old.
      destruct (nth_error es k) as [[[a1 b1] [y2 u2]]|] eqn:E1; [|apply nth_error_None in E1; lia].
      destruct (Pa k a1 b1 y2 u2 E1) as [n2 [m2 [c1 [du1 [dy1 [P1 [P2 [P3 [_ [_ [_ [P7 _]]]]]]]]]]]].
      rewrite P1 in K1. injection K1 as <-. rewrite P2 in K2. injection K2 as <-.
      apply dummy_model_inv in P3. destruct P3 as [alg [_ [Eu [Ey _]]]]. rewrite Eu, Ey in Is.
      apply P7. rewrite in_app_iff in *. tauto.
Qed.

Lemma extends_run : forall w0 (rest es : list (addr * addr * conn)) w w',
    Forall (fun e => (fst (fst e) < length (w_store w0))%nat /\ (snd (fst e) < length (w_store w0))%nat) rest ->
    chain w0 es w -> extends w0 es w -> run_all insert_step rest w = (w', Ok tt) -> extends w0 (es ++ rest) w'.
Proof.
  intros w0 rest; induction rest as [|[[a b] [y u]] rest IH]; intros es w w' Hr C X H; cbn [run_all] in H.
  - injection H as <-. rewrite app_nil_r. exact X.
  - inversion Hr as [|? ? [La Lb] Hr']; subst. unfold insert_step at 1 in H.
    destruct (insert_intermediary_node y u a b w) as [w1 [[]|e]] eqn:E; [|discriminate].
    pose proof (chain_step w0 es w a b y u w1 La Lb C E) as C1.
    pose proof (extends_step w0 es w a b y u w1 La Lb C X E) as X1.
    pose proof (IH _ w1 w' Hr' C1 X1 H) as K. rewrite <- app_assoc in K. exact K.
Qed.

Lemma extends_all : forall w w', directed_graph (w_graph w) -> addrs_made w ->
    insert_intermediary_nodes w = (w', Ok tt) -> extends w (edges (w_graph w)) w'.
Proof.
  intros w w' D M H. apply (extends_run w (edges (w_graph w)) [] (set_w_graph [] w)).
  - apply edges_made; assumption.
  - apply chain_start.
  - intros env _. exists env. split; [reflexivity|]. split.
    + intros x z y u K. discriminate.
    + intros k n m K. simpl in K. lia.
  - exact H.
Qed.

(** ** Addresses *)

Definition grown (w w' : network) : Prop := (length (w_store w) <= length (w_store w'))%nat.

Lemma include_made : forall l w, addrs_made w ->
    addrs_made (fst (include_nodes l w)) /\ grown w (fst (include_nodes l w)).
Proof.
  intros l w M. unfold include_nodes, cbind.
  assert (K : forall l w, w_graph (fst (run_all give_id l w)) = w_graph w /\
                          length (w_store (fst (run_all give_id l w))) = length (w_store w) /\
                          (snd (run_all give_id l w) = Ok tt -> forall a, In a l -> (a < length (w_store w))%nat)).
  { clear. intros l; induction l as [|a l IH]; intros w; [simpl; repeat split; intros _ a []|]. cbn [run_all].
    destruct (give_id a w) as [w1 r] eqn:E. pose proof (give_id_cases a w w1 r E) as G.
    assert (G' : w_graph w1 = w_graph w /\ length (w_store w1) = length (w_store w)).
    { destruct G as [->|[n [_ [_ [_ ->]]]]]; [auto|]. simpl. rewrite update_len. auto. }
    destruct G' as [G1 G2]. destruct r as [[]|e].
    - destruct (IH w1) as [I1 [I2 I3]]. rewrite I1, I2, G1, G2. split; [reflexivity|]. split; [reflexivity|].
      intros Hok b [<-|Hb].
      + unfold give_id, node_at in E. destruct (nth_error (w_store w) a) eqn:En; [|discriminate].
        apply nth_error_Some. rewrite En. discriminate.
      + rewrite <- G2. apply I3; assumption.
    - simpl. split; [exact G1|]. split; [exact G2|]. discriminate. }
  destruct (K l w) as [K1 [K2 K3]]. destruct (run_all give_id l w) as [w1 [[]|e]]; simpl in *.
  - split.
    + intros a Ha. change (In a (dkeys (add_nodes_from l (w_graph w1)))) in Ha. simpl. apply add_nodes_In in Ha. rewrite K2.
      destruct Ha as [Ha|Ha]; [apply K3; auto|]. rewrite K1 in Ha. apply M, Ha.
    + unfold grown. simpl. lia.
  - split; [|unfold grown; simpl; lia]. intros a Ha. rewrite K1 in Ha. rewrite K2. apply M, Ha.
Qed.

Lemma make_made : forall n w, addrs_made w -> addrs_made (set_w_store (w_store w ++ [n]) w).
Proof.
  intros n w M a Ha. simpl in *. rewrite app_length. simpl. apply M in Ha. lia.
Qed.

Lemma create_made : forall n w, addrs_made w ->
    addrs_made (fst (create_node n w)) /\ grown w (fst (create_node n w)) /\
    snd (create_node n w) = Ok (length (w_store w)) /\ (length (w_store w) < length (w_store (fst (create_node n w))))%nat.
Proof.
  intros n w M. destruct (create_node_run n w) as [w1 E]. rewrite E. simpl.
  unfold create_node, make_node in E. unfold cbind at 1 in E.
  match type of E with context [include_nodes ?l] => set (l0 := l) in E end.
  pose proof (include_made l0 _ (make_made n w M)) as [K1 K2].
  unfold cbind in E. destruct (include_nodes l0 (set_w_store (w_store w ++ [n]) w)) as [w2 [[]|e]]; [|discriminate].
  injection E as <-. simpl in *. unfold grown in *. simpl in K2. rewrite app_length in K2. simpl in K2.
  split; [exact K1|]. split; [lia|]. split; [reflexivity|lia].
Qed.

Lemma raw_made : forall y u a b w, (a < length (w_store w))%nat -> (b < length (w_store w))%nat -> addrs_made w ->
    addrs_made (fst (raw_connect y u a b w)) /\ w_store (fst (raw_connect y u a b w)) = w_store w /\
    snd (raw_connect y u a b w) = Ok tt.
Proof.
  intros y u a b w La Lb M. unfold raw_connect, cmodify.
  destruct (match edge (w_graph w) a b with Some c => c | None => ([], []) end) as [y0 u0]. simpl. split; [|auto].
  intros x Hx. change (In x (dkeys (add_edge a b (y0 ++ y, u0 ++ u) (w_graph w)))) in Hx.
  rewrite add_edge_keys, !add_node_In in Hx. simpl. destruct Hx as [->|[->|Hx]]; try assumption. apply M, Hx.
Qed.

Lemma insert_made : forall y u a b w, addrs_made w ->
    addrs_made (fst (insert_intermediary_node y u a b w)) /\ grown w (fst (insert_intermediary_node y u a b w)).
Proof.
  intros y u a b w M. set (P := fun w' => addrs_made w' /\ grown w w').
  change (P (fst (insert_intermediary_node y u a b w))). unfold insert_intermediary_node, node_at.
  assert (Z : addrs_made w /\ grown w w) by (split; [exact M|unfold grown; lia]).
  destruct (nth_error (w_store w) a) as [na|] eqn:Ea; [|exact Z].
  destruct (nth_error (w_store w) b) as [nb|] eqn:Eb; [|exact Z].
  assert (La : (a < length (w_store w))%nat) by (apply nth_error_Some; rewrite Ea; discriminate).
  assert (Lb : (b < length (w_store w))%nat) by (apply nth_error_Some; rewrite Eb; discriminate).
  destruct y as [|y1 y]; [exact Z|]. destruct u as [|u1 u]; [exact Z|].
  cbv zeta. destruct (dummy_model _ _ _ _) as [m|e]; [|exact Z].
  destruct (n_problem na) as [p|]; [|exact Z].
  destruct (new_ocp _ _ _ _) as [q|e]; [|exact Z].
  unfold cbind at 1, cmodify. cbv iota beta.
  match goal with |- context [set_w_fresh ?c w] => set (w1 := set_w_fresh c w) end.
  assert (M1 : addrs_made w1) by exact M.
  unfold cbind at 1.
  match goal with |- context [create_node ?n w1] => destruct (create_made n w1 M1) as [C1 [C2 [C3 C4]]];
    destruct (create_node n w1) as [w2 [n2|e]] end; simpl in C1, C2, C3, C4; [|discriminate].
  injection C3 as ->. unfold grown in *. simpl in C2.
  unfold cbind at 1.
  match goal with |- context [raw_connect ?p ?q ?r ?s w2] => destruct (raw_made p q r s w2 ltac:(simpl in *; lia) ltac:(simpl in *; lia) C1) as [R1 [R2 R3]];
    destruct (raw_connect p q r s w2) as [w3 [[]|e]] end; simpl in R1, R2, R3; [|discriminate].
  match goal with |- context [raw_connect ?p ?q ?r ?s w3] => destruct (raw_made p q r s w3 ltac:(rewrite R2; simpl in *; lia) ltac:(rewrite R2; simpl in *; lia) R1) as [S1 [S2 _]] end.
  split; [exact S1|]. refine (Nat.le_trans _ (length (w_store w2)) _ C2 _).
  apply Nat.eq_le_incl. symmetry. exact (f_equal (@length node) (eq_trans S2 R2)).
Qed.

Lemma step_made : forall op w, addrs_made w -> addrs_made (fst (net_step op w)).
Proof.
  intros op w M. destruct op; simpl.
  - unfold cbind. simpl. apply make_made, M.
  - apply include_made, M.
  - destruct (create_made n w M) as [K _]. unfold cbind. destruct (create_node n w) as [w1 [x|e]]; exact K.
  - unfold net_connect, check_var, cbind, has_var, model_of, node_at.
    destruct (nth_error (w_store w) a) as [na|] eqn:Ea; [|exact M].
    destruct (n_model na) as [ma|]; [|exact M]. destruct (has_variable y ma); [|exact M].
    destruct (nth_error (w_store w) b) as [nb|] eqn:Eb; [|exact M].
    destruct (n_model nb) as [mb|]; [|exact M]. destruct (has_variable u mb); [|exact M].
    destruct (w_inter w); [apply insert_made, M|].
    apply raw_made; [| |exact M]; apply nth_error_Some; [rewrite Ea|rewrite Eb]; discriminate.
  - unfold remove_connection, cset. destruct (remove_edge a b (w_graph w)) as [g|e] eqn:E; [|exact M].
    simpl. intros x Hx. apply M. simpl in *. unfold remove_edge in E.
    destruct (dget Nat.eqb a (w_graph w)) as [d|] eqn:Ed; [|discriminate].
    destruct (ddel Nat.eqb b d) as [d'|]; [|discriminate]. injection E as <-.
    rewrite dset_keys in Hx. match type of Hx with context [in_dec ?e ?x ?l] => destruct (in_dec e x l) as [I1|I1] end; [exact Hx|].
    exfalso. apply I1. apply (dget_In _ eqb_ok) in Ed. apply in_map_iff. exists (a, d). auto.
  - unfold insert_intermediary_nodes. apply run_all_any.
    + intros [[a b] [y u]] w1 H1. apply insert_made, H1.
    + intros a [].
Qed.

Lemma addrs_reached : forall made ops w, built made ops w -> addrs_made w.
Proof.
  intros made ops w [inter [fr ->]]. assert (M : addrs_made (new_network made inter fr)) by (intros a []).
  revert M. generalize (new_network made inter fr) as w. unfold run_caught.
  induction ops as [|op ops IH]; intros w M; [exact M|]. simpl. apply IH. apply step_made, M.
Qed.

(** ** All connections *)

Fixpoint pos (a b : addr) (l : list (addr * addr * conn)) : nat :=
  match l with
  | [] => 0
  | (a', b', _) :: l' => if (Nat.eqb a' a && Nat.eqb b' b)%bool then 0 else S (pos a b l')
  end.

Lemma pos_nth : forall l k a b c, NoDup (map fst l) -> nth_error l k = Some (a, b, c) -> pos a b l = k.
Proof.
  intros l; induction l as [|[[a' b'] c'] l IH]; intros [|k] a b c Hn H; simpl in *; try discriminate.
  - injection H as -> -> ->. rewrite !Nat.eqb_refl. reflexivity.
  - inversion Hn; subst. destruct (Nat.eqb a' a && Nat.eqb b' b)%bool eqn:E.
    + exfalso. apply andb_true_iff in E. destruct E as [E1 E2]. apply Nat.eqb_eq in E1. apply Nat.eqb_eq in E2. subst a' b'.
      apply H2. apply nth_error_In in H. apply in_map_iff. exists (a, b, c). auto.
    + f_equal. apply (IH k a b c); assumption.
Qed.

Lemma carries_nth : forall g a b y u, carries g a b y u -> exists k, nth_error (edges g) k = Some (a, b, (y, u)).
Proof.
  intros g a b y u H. apply edges_In in H. apply In_nth_error in H. exact H.
Qed.

Lemma nth_carries : forall g a b y u k, nth_error (edges g) k = Some (a, b, (y, u)) -> carries g a b y u.
Proof.
  intros g a b y u k H. apply edges_In. apply (nth_error_In _ _ H).
Qed.

Lemma paths : forall made ops w w', built made ops w -> insert_intermediary_nodes w = (w', Ok tt) ->
    exists via : addr -> addr -> addr,
      (forall a b y u, carries (w_graph w) a b y u ->
         (length (w_store w) <= via a b)%nat /\ stands_between w w' a b y u (via a b)) /\
      (forall a b y u a' b' y' u', carries (w_graph w) a b y u -> carries (w_graph w) a' b' y' u' ->
         via a b = via a' b' -> a = a' /\ b = b') /\
      (forall x z y u, carries (w_graph w') x z y u ->
         exists a b y0 u0, carries (w_graph w) a b y0 u0 /\
           ((x = a /\ z = via a b) \/ (x = via a b /\ z = b))) /\
      (forall x, in_network w' x <->
         exists a b y u, carries (w_graph w) a b y u /\ (x = a \/ x = b \/ x = via a b)) /\
      (forall x, (x < length (w_store w))%nat -> nth_error (w_store w') x = nth_error (w_store w) x).
Proof.
  intros made ops w w' B H. pose proof (directed_reached _ _ _ B) as D. pose proof (addrs_reached _ _ _ B) as M.
  pose proof (chain_all w w' D M H) as [D' M' [news [Es Ln]] Fr Pa On No].
  pose proof (edges_endpoints (w_graph w) D) as Nd.
  exists (fun a b => length (w_store w) + pos a b (edges (w_graph w)))%nat.
  split; [|split; [|split; [|split]]].
  - intros a b y u K. destruct (carries_nth _ _ _ _ _ K) as [k Ek]. rewrite (pos_nth _ k a b (y, u) Nd Ek).
    split; [lia|]. destruct (Pa k a b y u Ek) as [n [m [c [du [dy [P1 [P2 [P3 [P4 [P5 [P6 [P7 [P8 P9]]]]]]]]]]]]].
    apply dummy_model_inv in P3. destruct P3 as [alg [_ [Q1 [Q2 [Q3 [Q4 [Q5 _]]]]]]].
    exists m, du, dy. split; [exists n; auto|]. repeat (split; [assumption|]). split; [intros s Is; apply P7, Is|].
    split; [exact P6|]. split; apply carries_edge; assumption.
  - intros a b y u a' b' y' u' K K' E.
    destruct (carries_nth _ _ _ _ _ K) as [k Ek]. destruct (carries_nth _ _ _ _ _ K') as [k' Ek'].
    rewrite (pos_nth _ k a b (y, u) Nd Ek), (pos_nth _ k' a' b' (y', u') Nd Ek') in E.
    assert (k = k') by lia. subst k'. rewrite Ek in Ek'. injection Ek' as -> -> _ _. auto.
  - intros x z y u K. apply carries_edge in K; [|exact D']. destruct (On x z _ K) as [k [a [b [y0 [u0 [K1 K2]]]]]].
    exists a, b, y0, u0. split; [apply (nth_carries _ _ _ _ _ k K1)|].
    rewrite (pos_nth _ k a b (y0, u0) Nd K1). exact K2.
  - intros x. unfold in_network. rewrite (No x). split.
    + intros [k [a [b [[y u] [K1 K2]]]]]. exists a, b, y, u. split; [apply (nth_carries _ _ _ _ _ k K1)|].
      rewrite (pos_nth _ k a b (y, u) Nd K1). exact K2.
    + intros [a [b [y [u [K1 K2]]]]]. destruct (carries_nth _ _ _ _ _ K1) as [k Ek].
      exists k, a, b, (y, u). split; [exact Ek|]. rewrite (pos_nth _ k a b (y, u) Nd Ek) in K2. exact K2.
  - intros x Lx. rewrite Es. apply nth_error_app1, Lx.
Qed.

Lemma inter_succeeds : forall made ops w, built made ops w ->
    (forall a b y u, carries (w_graph w) a b y u ->
       y <> [] /\ length u = length y /\ exists p, has_problem w a p) ->
    snd (insert_intermediary_nodes w) = Ok tt.
Proof.
  intros made ops w B H. pose proof (directed_reached _ _ _ B) as D. pose proof (addrs_reached _ _ _ B) as M.
  unfold insert_intermediary_nodes.
  change (snd (run_all insert_step (edges (w_graph w)) (set_w_graph [] w)) = Ok tt).
  assert (G : forall rest w1, directed_graph (w_graph w1) -> addrs_made w1 ->
    (forall x, (x < length (w_store w))%nat -> nth_error (w_store w1) x = nth_error (w_store w) x) ->
    (forall e, In e rest -> In e (edges (w_graph w))) -> snd (run_all insert_step rest w1) = Ok tt).
  { intros rest; induction rest as [|[[a b] [y u]] rest IH]; intros w1 D1 M1 S1 Hr; [reflexivity|].
    cbn [run_all]. unfold insert_step at 1.
    assert (K : carries (w_graph w) a b y u) by (apply edges_In, Hr; left; reflexivity).
    destruct (H a b y u K) as [Hy [Hl [p [na [Ena Ep]]]]].
    pose proof (edges_made w D M) as Em. rewrite Forall_forall in Em.
    destruct (Em (a, b, (y, u)) (Hr _ (or_introl eq_refl))) as [La Lb]. simpl in La, Lb.
    destruct (nth_error (w_store w) b) as [nb|] eqn:Enb; [|apply nth_error_None in Enb; lia].
    rewrite <- (S1 a La) in Ena. rewrite <- (S1 b Lb) in Enb.
    pose proof (insert_total y u a b w1 na nb p Ena Enb Ep Hy Hl) as T.
    destruct (insert_intermediary_node y u a b w1) as [w2 r] eqn:E. simpl in T. subst r.
    assert (L1 : (length (w_store w) <= length (w_store w1))%nat).
    { destruct (Nat.le_gt_cases (length (w_store w)) (length (w_store w1))) as [|G]; [assumption|].
      specialize (S1 (length (w_store w1)) G). rewrite (proj2 (nth_error_None _ _) (Nat.le_refl _)) in S1.
      symmetry in S1. apply nth_error_None in S1. lia. }
    pose proof (insert_made y u a b w1 M1) as [M2 _]. rewrite E in M2. simpl in M2.
    apply insert_ok in E; [|exact D1|exact M1]. destruct E as [na' [nb' [p' [m' [q' [_ [_ [_ [_ [_ E]]]]]]]]]]. cbv zeta in E.
    destruct E as [_ [_ [St [_ [_ [_ Gr]]]]]]. apply IH.
    - rewrite Gr. apply directed_add_edge, directed_add_edge, directed_add_node, D1.
    - exact M2.
    - intros x Lx. rewrite St, nth_error_app1 by lia. apply S1, Lx.
    - intros e He. apply Hr. right. exact He. }
  apply G; simpl; auto.
  - apply directed_nil.
  - intros a [].
Qed.

Lemma same_solutions_back : forall made ops w w' F env dx,
    built made ops w -> equal_sizes w -> insert_intermediary_nodes w = (w', Ok tt) ->
    edges_hold env w' -> new_nodes_hold F env dx (length (w_store w)) w' -> edges_hold env w.
Proof.
  intros made ops w w' F env dx B Hs H He Hn a b y u K.
  pose proof (directed_reached _ _ _ B) as D. pose proof (addrs_reached _ _ _ B) as M.
  pose proof (chain_all w w' D M H) as [D' M' _ Fr Pa On No].
  destruct (carries_nth _ _ _ _ _ K) as [k Ek].
  destruct (Pa k a b y u Ek) as [n [m [c [du [dy [P1 [P2 [P3 [P4 [P5 [_ [_ [P8 P9]]]]]]]]]]]]].
  apply carries_edge in P8; [|exact D']. apply carries_edge in P9; [|exact D'].
  assert (A : agree env du dy).
  { apply (dummy_solves F env dx c (c + 1) du dy m).
    - rewrite P4, P5. symmetry. apply (Hs a b y u K).
    - exact P3.
    - apply (Hn (length (w_store w) + k)%nat m); [|lia|exists n; auto].
      apply No. exists k, a, b, (y, u). auto. }
  apply (agree_trans _ _ dy); [apply (He _ _ _ _ P9)|].
  apply (agree_trans _ _ du); [apply agree_sym, A|apply (He _ _ _ _ P8)].
Qed.

Lemma same_solutions_forth : forall made ops w w' F env dx,
    built made ops w -> edge_symbols_used w -> insert_intermediary_nodes w = (w', Ok tt) ->
    edges_hold env w -> exists env', (forall s, (s < w_fresh w)%nat -> env' s = env s) /\
      edges_hold env' w' /\ new_nodes_hold F env' dx (length (w_store w)) w'.
Proof.
  intros made ops w w' F env dx B Hu H He.
  pose proof (directed_reached _ _ _ B) as D. pose proof (addrs_reached _ _ _ B) as M.
  destruct (extends_all w w' D M H env) as [env' [E1 [E2 E3]]].
  { intros a b y u K. apply edges_In in K. split; [apply (He a b y u K)|]. intros s Is. apply (Hu a b y u s K Is). }
  pose proof (chain_all w w' D M H) as [D' M' _ Fr Pa On No].
  exists env'. split; [exact E1|]. split.
  - intros a b y u K. apply carries_edge in K; [|exact D']. apply (E2 a b y u K).
  - intros x m Hx Lx [n [Hn Hm]]. apply No in Hx. destruct Hx as [k [a [b [[y u] [K1 K2]]]]].
    assert (Kc : carries (w_graph w) a b y u) by apply (nth_carries _ _ _ _ _ k K1).
    assert (Ex : x = (length (w_store w) + k)%nat).
    { pose proof (edges_made w D M) as Em. rewrite Forall_forall in Em.
      destruct (Em _ (nth_error_In _ _ K1)) as [La Lb]. simpl in La, Lb. destruct K2 as [->|[->|K2]]; [lia|lia|exact K2]. }
    destruct (Pa k a b y u K1) as [n1 [m1 [c [du [dy [P1 [P2 [P3 [P4 [P5 _]]]]]]]]]].
    subst x. rewrite P1 in Hn. injection Hn as <-. rewrite P2 in Hm. injection Hm as <-.
    apply (dummy_solves F env' dx c (c + 1) du dy m1); [|exact P3|].
    + rewrite P4, P5. symmetry. apply (Forall2_len _ _ _ _ _ (He a b y u Kc)).
    + destruct (dummy_model_inv _ _ _ _ _ P3) as [alg [_ [Qu [Qy _]]]]. rewrite <- Qu, <- Qy.
      apply (E3 k n1 m1); [|exact P1|exact P2]. apply (proj1 (nth_error_Some (edges (w_graph w)) k)). intros Z.
      pose proof (eq_trans (eq_sym K1) Z). discriminate.
Qed.

(** Proofs about the update of the multipliers. *)
From Coq Require Import String Sorted SetoidList Lqa Qabs.
From Verif Require Import Base BaseProofs UtilModel UtilProofs ExprModel ExprProofs NlpModel NlpSpec SysModel
  SysSpec SysProofs OcpModel OcpSpec LagModel LagSpec LagProofs DiscModel DiscSpec DiscProofs
  ColSpec ColPolyProofs ColEvalProofs ColProofs ColElementProofs ColAssemblyProofs ColTopProofs AugModel AugSpec.
Local Open Scope list_scope.
Local Open Scope nat_scope.

Lemma seq_blocks : forall d b e, concat (map (fun el => seq (b + d * el) d) (seq 0 e)) = seq b (d * e).
Proof.
  intros d b e. induction e as [|e IH]; [rewrite Nat.mul_0_r; reflexivity|].
  rewrite seq_S, map_app, concat_app, IH. cbn [map concat]. rewrite app_nil_r, Nat.add_0_l.
  rewrite <- seq_app. f_equal. lia.
Qed.

Lemma symbols_convert : forall e t tau a b x, In x (symbols e) -> x <> tau ->
    In x (symbols (convert_expr_from_tau_to_time e t tau a b)).
Proof.
  intros e t tau a b x. unfold convert_expr_from_tau_to_time. induction e as [q|s|o e1 IH1 e2 IH2|f e IH]; cbn [symbols substitute];
    intros H Hx; [contradiction| | |apply IH; assumption].
  - destruct H as [->|[]]. cbn [subst_lookup]. destruct (Nat.eqb_spec x tau); [contradiction | left; reflexivity].
  - apply in_app_iff in H. apply in_app_iff. destruct H as [H|H]; [left; apply IH1 | right; apply IH2]; assumption.
Qed.
Lemma assign_middle : forall env A B C va vb vb' vc s, length A = length va -> length B = length vb ->
    length B = length vb' -> ~ In s B ->
    assign env (A ++ B ++ C) (va ++ vb ++ vc) s = assign env (A ++ B ++ C) (va ++ vb' ++ vc) s.
Proof.
  intros env A B C va vb vb' vc s. revert va. induction A as [|x A IH]; intros [|y va] L1 L2 L3 H; try discriminate.
  - cbn [app]. clear L1. revert vb vb' L2 L3. induction B as [|x B IHB]; intros [|v vb] [|v' vb'] L2 L3; try discriminate; [reflexivity|].
    cbn [app assign]. destruct (Nat.eq_dec s x) as [->|_]; [exfalso; apply H; left; reflexivity|].
    apply IHB; [intros Hi; apply H; right; exact Hi | cbn in L2; lia | cbn in L3; lia].
  - cbn [app assign]. destruct (Nat.eq_dec s x); [reflexivity|]. apply IH; [cbn in L1; lia | assumption..].
Qed.
Lemma nth_error_ext_Q : forall (l l' : list Q), (forall i, nth_error l i = nth_error l' i) -> l = l'.
Proof.
  intros l. induction l as [|a l IH]; intros [|b l'] H; [reflexivity | specialize (H 0); discriminate.. |].
  pose proof (H 0) as H0. injection H0 as ->. f_equal. apply IH. intros i. apply (H (S i)).
Qed.

Lemma find_suffix : forall A B : list nat, NoDup (A ++ B) -> find_variables_indices_in_vector Nat.eqb B (A ++ B) = seq (length A) (length B).
Proof.
  intros A B N.
  assert (Hin : forall v, In v B -> In v (A ++ B)) by (intros v Hv; apply in_app_iff; right; exact Hv).
  assert (E : map (nth_error (A ++ B)) (find_variables_indices_in_vector Nat.eqb B (A ++ B)) = map Some B)
    by exact (find_indices_members Nat.eqb Nat.eqb_eq B (A ++ B) N Hin).
  assert (L := f_equal (@length _) E). rewrite !map_length in L.
  set (idx := find_variables_indices_in_vector Nat.eqb B (A ++ B)) in *.
  apply (nth_ext _ _ 0 0); [rewrite seq_length; exact L|]. intros i Hi. rewrite L in Hi.
  rewrite seq_nth by exact Hi.
  assert (E2 : nth_error (A ++ B) (nth i idx 0) = nth_error (A ++ B) (length A + i)).
  { rewrite (nth_error_app2 A B (n := length A + i)) by lia. replace (length A + i - length A) with i by lia.
    assert (H := f_equal (fun l => nth_error l i) E). cbv beta in H. rewrite !nth_error_map in H.
    rewrite (nth_error_nth' idx 0) in H by lia. cbn [option_map] in H.
    destruct (nth_error B i) as [b|] eqn:Eb; [injection H as H; exact H | discriminate]. }
  apply (proj1 (NoDup_nth_error (A ++ B)) N); [|exact E2].
  apply nth_error_Some. rewrite E2. apply nth_error_Some. rewrite app_length. lia.
Qed.
Lemma index_vec_nth : forall (A : Type) (v l : list A) idx i j, index_vec v idx = Ok l -> nth_error idx i = Some j ->
    nth_error l i = nth_error v j.
Proof.
  intros A v l idx i j H Hi. unfold index_vec in H. destruct (forallb _ _) eqn:E; [|discriminate]. injection H as <-.
  rewrite forallb_forall in E.
  assert (G := gather_in_range _ v idx (fun x Hx => proj1 (Nat.ltb_lt _ _) (E x Hx))).
  assert (H := f_equal (fun l => nth_error l i) G). cbv beta in H. rewrite !nth_error_map, Hi in H. cbn [option_map] in H.
  destruct (nth_error (gather v idx) i); cbn [option_map] in H; [injection H as H; symmetry; exact H | discriminate].
Qed.
Lemma zip_vec_nth : forall op u v l i a b, length u = length v -> zip_vec op u v = Ok l ->
    nth_error u i = Some a -> nth_error v i = Some b -> nth_error l i = Some (EBin op a b).
Proof.
  intros op u v l i a b L H Ha Hb. unfold zip_vec in H. rewrite L, Nat.eqb_refl in H. injection H as <-.
  rewrite nth_error_map, (combine_nth_error _ _ _ _ _ _ _ Ha Hb). reflexivity.
Qed.
Lemma zip_vec_length : forall op u v l, length u = length v -> zip_vec op u v = Ok l -> length l = length u.
Proof.
  intros op u v l L H. unfold zip_vec in H. rewrite L, Nat.eqb_refl in H. injection H as <-.
  rewrite map_length, combine_length, L. apply Nat.min_id.
Qed.

(** ** One element *)

Section Updating.
  Variables (F : nat -> Q -> Q) (points : nat -> list Q) (a : augmented) (own_p own_theta : list sym).
  Let k : method := ag_method a.
  Let m : model := k_model k.
  Let pts : list Q := points (k_degree k).
  Let n : nat := relaxed_count a.
  Hypothesis HF : respects F.
  Hypothesis T : transcribable k.
  Hypothesis Hpts : collocation_points (points (k_degree k)) (k_degree k).
  Hypothesis C : carries F pts a own_p own_theta.

  (** The symbols of the function. *)
  Let c : nat := S (list_max (ag_variables a)).
  Let par : list sym := seq c (n_p k).
  Let th : list (list sym) := map (fun el => seq (c + n_p k + n_theta k * el) (n_theta k)) (seq 0 (k_elements k)).

  Lemma th_rows : rows (k_elements k) (n_theta k) th.
  Proof.
    split; [unfold th; rewrite map_length, seq_length; reflexivity|]. apply Forall_map, Forall_forall.
    intros el _. apply seq_length.
  Qed.
  Lemma th_nth : forall el, el < k_elements k -> nth_error th el = Some (seq (c + n_p k + n_theta k * el) (n_theta k)).
  Proof. intros el H. unfold th. rewrite nth_error_map, (nth_seq _ _ H). reflexivity. Qed.
  Lemma th_concat : concat th = seq (c + n_p k) (n_theta k * k_elements k).
  Proof. apply seq_blocks. Qed.
  Lemma inputs_distinct : NoDup (concat [ag_variables a; par; concat th]).
  Proof.
    cbn [concat]. rewrite app_nil_r. apply NoDup_app_intro.
    - apply (ca_variables _ _ _ _ _ C).
    - unfold par. rewrite th_concat. rewrite <- seq_app. apply seq_NoDup.
    - intros x Hx Hx'. unfold par in Hx'. rewrite th_concat, <- seq_app in Hx'. apply in_seq in Hx'.
      assert (x <= list_max (ag_variables a)).
      { assert (L : list_max (ag_variables a) <= list_max (ag_variables a)) by lia.
        apply list_max_le in L. rewrite Forall_forall in L. apply L, Hx. }
      unfold c in Hx'. lia.
  Qed.

  (** ** A solution *)

  Variables (p_v : list Q) (thv : list (list Q)) (r : traj Q) (q : trajectory) (rs : traj sym).
  Hypothesis Sr : collocation_shape k r.
  Hypothesis Srs : collocation_shape k rs.
  Hypothesis Ers : flatten rs = ag_variables a.
  Hypothesis Lp : length p_v = n_p k.
  Hypothesis Lth : rows (k_elements k) (n_theta k) thv.
  Hypothesis R : reads k pts r p_v (fun el => nth el thv []) q.
  Hypothesis HK : k_elements k <> 0.
  Let raw : list Q := flatten r.
  Let env : sym -> Q := assign (fun _ => 0%Q) (concat [ag_variables a; par; concat th]) (raw ++ p_v ++ concat thv).
  Let x0s : list sym := seq (c + n_p k + n_theta k * k_elements k) (n_x k).
  Let s : par_syms := mkParSyms par th x0s [].
  (** The trajectory without initial condition and last control. *)
  Let q' : trajectory := mkTrajectory (q_x q) (q_y q) (q_u q) (q_p q) (q_theta q) (q_eta q) (repeat 0%Q (n_x k)) [].

  Lemma raw_length : length raw = length (ag_variables a).
  Proof. unfold raw. rewrite <- Ers, (flatten_length _ _ _ _ _ _ Sr), (flatten_length _ _ _ _ _ _ Srs). reflexivity. Qed.
  Lemma th_length : length (concat th) = length (concat thv).
  Proof. rewrite (rows_concat_length _ _ _ _ th_rows), (rows_concat_length _ _ _ _ Lth). reflexivity. Qed.
  Lemma ins_concat : concat [ag_variables a; par; concat th] = ag_variables a ++ par ++ concat th.
  Proof. cbn [concat]. rewrite app_nil_r. reflexivity. Qed.
  Lemma env_raw : map env (ag_variables a) = raw.
  Proof.
    unfold env. rewrite ins_concat.
    apply (assign_block _ [] (ag_variables a) (par ++ concat th) [] raw (p_v ++ concat thv)).
    - cbn [app]. rewrite <- ins_concat. apply inputs_distinct.
    - reflexivity.
    - symmetry. apply raw_length.
  Qed.
  Lemma par_length : length par = n_p k.
  Proof. unfold par. apply seq_length. Qed.
  Lemma env_par : map env par = p_v.
  Proof.
    unfold env. rewrite ins_concat.
    apply (assign_block _ (ag_variables a) par (concat th) raw p_v (concat thv)).
    - rewrite <- ins_concat. apply inputs_distinct.
    - symmetry. apply raw_length.
    - rewrite par_length. symmetry. exact Lp.
  Qed.
  Lemma env_th_all : map env (concat th) = concat thv.
  Proof.
    unfold env. rewrite ins_concat. rewrite <- (app_nil_r (concat th)) at 1. rewrite <- (app_nil_r (concat thv)) at 1.
    rewrite (app_assoc (ag_variables a)), (app_assoc raw).
    apply (assign_block _ (ag_variables a ++ par) (concat th) [] (raw ++ p_v) (concat thv) []).
    - rewrite app_nil_r, <- app_assoc, <- ins_concat. apply inputs_distinct.
    - rewrite !app_length, par_length, Lp, raw_length. reflexivity.
    - apply th_length.
  Qed.
  Lemma env_th : map (map env) th = thv.
  Proof.
    apply (rows_concat_inj _ (k_elements k) (n_theta k)); [apply rows_map, th_rows | exact Lth|].
    rewrite <- concat_map. apply env_th_all.
  Qed.
  Lemma env_rs : traj_map env rs = r.
  Proof.
    apply (flatten_inj _ _ _ _ _ _ _ (shaped_map _ _ env _ _ _ _ _ Srs) Sr).
    rewrite flatten_map, Ers. apply env_raw.
  Qed.
  Lemma env_x0 : map env x0s = repeat 0%Q (n_x k).
  Proof.
    assert (H : forall l, (forall x, In x l -> env x = 0%Q) -> map env l = repeat 0%Q (length l)).
    { intros l. induction l as [|x l IH]; intros Hl; [reflexivity|]. cbn [map length repeat].
      rewrite Hl by (left; reflexivity). f_equal. apply IH. intros y Hy. apply Hl. right. exact Hy. }
    rewrite H; [unfold x0s; rewrite seq_length; reflexivity|]. intros x Hx. unfold env. apply assign_notin.
    rewrite ins_concat. unfold par. rewrite th_concat, <- seq_app. intros Hin. apply in_app_iff in Hin.
    unfold x0s in Hx. apply in_seq in Hx. destruct Hin as [Hin|Hin].
    - assert (L : list_max (ag_variables a) <= list_max (ag_variables a)) by lia.
      apply list_max_le in L. rewrite Forall_forall in L. specialize (L _ Hin). unfold c in Hx. lia.
    - apply in_seq in Hin. lia.
  Qed.

  Lemma x0_length : length x0s = n_x k.
  Proof. unfold x0s. apply seq_length. Qed.
  Lemma describes_q : describes k pts env s rs q'.
  Proof.
    assert (Ex : r_x r = map (map (map env)) (r_x rs)) by (rewrite <- env_rs; reflexivity).
    assert (Ey : r_y r = map (map (map env)) (r_y rs)) by (rewrite <- env_rs; reflexivity).
    assert (Eu : r_u r = map (map (map env)) (r_u rs)) by (rewrite <- env_rs; reflexivity).
    assert (Ee : r_eta r = map env (r_eta rs)) by (rewrite <- env_rs; reflexivity).
    destruct (ca_decided _ _ _ _ _ C) as [O1 O2].
    constructor; cbn [q_x q_y q_u q_p q_theta q_eta q_x0 q_last_u q' ps_p ps_theta ps_x0 ps_last_u s].
    - intros el i Hel Hi. destruct (rd_x _ _ _ _ _ _ R el i Hel Hi) as [A B]. split; [exact A|].
      intros j tau v Hj Hv. apply (B j tau (env v) Hj). rewrite Ex. apply entry_map, Hv.
    - intros el i Hel Hi. destruct (rd_y _ _ _ _ _ _ R el i Hel Hi) as [A B]. split; [exact A|].
      intros j tau v Hj Hv. apply (B j tau (env v) Hj). rewrite Ey. apply entry_map, Hv.
    - intros el l Hl. rewrite concat_map. apply (rd_u _ _ _ _ _ _ R). rewrite Eu. apply map_nth_error, Hl.
    - fold k in O1. rewrite O1, env_par, (rd_p _ _ _ _ _ _ R). split; [exact Lp|]. intros i x Hi.
      split; [reflexivity | intros j Hj; destruct j; discriminate].
    - intros el given decided Hg Hd.
      assert (Hel : el < k_elements k).
      { rewrite <- (proj1 th_rows). apply nth_error_Some. congruence. }
      fold k in O2. rewrite O2, (rd_theta _ _ _ _ _ _ R el Hel).
      assert (E : nth el thv [] = map env given).
      { rewrite <- env_th. apply nth_error_nth, map_nth_error, Hg. }
      rewrite E. split; [|intros i x Hi; split; [reflexivity | intros j Hj; destruct j; discriminate]].
      rewrite map_length. destruct th_rows as [_ G]. rewrite Forall_forall in G. apply G, (nth_error_In _ _ Hg).
    - rewrite (rd_eta _ _ _ _ _ _ R). exact Ee.
    - symmetry. apply env_x0.
    - reflexivity.
  Qed.

  Variables (dt : Q) (bps : list Q).
  Hypothesis Hdt : delta_t k = Ok dt.
  Hypothesis Hbps : breakpoints k = Ok bps.

  Lemma element_fits : forall i e,
      nth_error (elements k dt bps (with_last_state rs) (map EVar par) (map (map EVar) th)) i = Some e ->
      i < k_elements k /\ fits F k env rs q' i e.
  Proof.
    intros i e H. unfold elements in H. rewrite nth_error_map in H.
    destruct (nth_error (seq 0 (k_elements k)) i) as [j|] eqn:E; [|discriminate].
    apply nth_seq_inv in E. destruct E as [Hi ->]. injection H as <-. split; [exact Hi|].
    destruct (breakpoints_ok _ _ Hbps) as [_ Eb].
    assert (Edt : dt = step_size k).
    { unfold delta_t in Hdt. destruct (k_elements k =? 0)%nat; [discriminate|]. injection Hdt as <-. reflexivity. }
    assert (B : forall x, x < k_elements k + 1 -> (nth x bps 0 == step_size k * inject_Z (Z.of_nat x))%Q).
    { intros x Hx. rewrite Eb. erewrite nth_error_nth; [|apply map_nth_error, nth_seq, Hx]. unfold step_size, q_of_nat. reflexivity. }
    destruct Srs as [[Lx _] [[Ly _] [[Lu _] _]]].
    constructor; cbn [e_a e_b e_dt e_x e_y e_u e_p e_theta with_last_state r_x r_y r_u].
    - apply B. lia.
    - rewrite B by lia. rewrite Nat.add_1_r. change (inject_Z (Z.of_nat (S i))) with (q_of_nat (S i)). rewrite q_of_nat_S. unfold q_of_nat. ring.
    - rewrite Edt. reflexivity.
    - rewrite app_nth1 by lia. apply nth_error_nth'. lia.
    - apply nth_error_nth'. lia.
    - apply nth_error_nth'. lia.
    - cbn [q_p q']. rewrite (rd_p _ _ _ _ _ _ R). rewrite <- env_par. apply vals_vars.
    - cbn [q_theta q']. rewrite (rd_theta _ _ _ _ _ _ R i Hi), <- env_th.
      rewrite (map_nth (map EVar) th [] i : nth i (map (map EVar) th) [] = _).
      rewrite (map_nth (map env) th [] i : nth i (map (map env) th) [] = _). apply vals_vars.
  Qed.

  Lemma same_outside : forall i tau x, i < k_elements k -> ~ In x (m_x_0 m) -> at_point k q' i tau x = at_point k q i tau x.
  Proof.
    intros i tau x Hi Nx.
    unfold at_point. cbn [q_p q_theta q_u q_x0 q_eta q'].
    assert (Ep : problem_symbols k = (m_t m :: m_tau m :: m_x m ++ m_y m ++ m_p m ++ m_theta m ++ m_u_par m) ++ m_x_0 m ++ o_eta (k_problem k)).
    { unfold problem_symbols. fold m. cbn [app]. rewrite <- !app_assoc. reflexivity. }
    rewrite Ep.
    assert (Ev : forall t0 xs0, t0 :: tau :: x_at k q i tau ++ y_at k q i tau ++ q_p q ++ q_theta q i ++ q_u q i ++ xs0 ++ q_eta q
        = (t0 :: tau :: x_at k q i tau ++ y_at k q i tau ++ q_p q ++ q_theta q i ++ q_u q i) ++ xs0 ++ q_eta q).
    { intros. cbn [app]. rewrite <- !app_assoc. reflexivity. }
    change (x_at k q' i tau) with (x_at k q i tau). change (y_at k q' i tau) with (y_at k q i tau).
    rewrite (Ev _ (repeat 0%Q (n_x k))), (Ev _ (q_x0 q)). apply assign_middle.
    - assert (Dq := describes_q).
      assert (L1 := len_u points k env s rs q' T Srs Dq par_length x0_length i Hi).
      cbn [length]. rewrite !app_length. unfold x_at, y_at. rewrite !map_length, !seq_length.
      rewrite (rd_p _ _ _ _ _ _ R), Lp. fold m. unfold n_p. fold m.
      cbn [q_u q'] in L1. rewrite L1. unfold n_u_par. fold m.
      rewrite (rd_theta _ _ _ _ _ _ R i Hi). destruct Lth as [K1 K2]. rewrite Forall_forall in K2.
      rewrite (K2 (nth i thv [])) by (apply nth_In; lia). unfold n_theta. fold m. reflexivity.
    - rewrite repeat_length. apply (tr_initial _ T).
    - symmetry. apply (rd_x0 _ _ _ _ _ _ R).
    - exact Nx.
  Qed.

  (** The value of an expression a function of the element accepts does not depend on the
      initial condition. *)
  Lemma accepted_value : forall a0 b0 es f el tau i, element_function k a0 b0 es = Ok f ->
      In el es -> i < k_elements k -> eval F (at_point k q' i tau) el = eval F (at_point k q i tau) el.
  Proof.
    intros a0 b0 es f el tau i Hf Hin Hi. apply eval_ext. intros x Hx.
    apply make_function_ok in Hf. destruct Hf as [_ Hf].
    assert (N : NoDup (problem_symbols k)) by apply (tr_symbols _ T).
    assert (Nx : ~ In x (m_x_0 m)).
    { intros H0. unfold problem_symbols in N. fold m in N. destruct (Nat.eq_dec x (m_tau m)) as [->|Hne].
      - apply NoDup_cons_iff in N. destruct N as [_ N]. apply NoDup_cons_iff in N. destruct N as [N _]. apply N.
        rewrite !in_app_iff. tauto.
      - assert (Hc : In x (concat (all_sym_list m))).
        { refine (Hf _ x _ _); [apply in_map, Hin|]. apply symbols_convert; assumption. }
        cbn [concat app all_sym_list] in Hc. rewrite app_nil_r in Hc.
        apply (NoDup_app_disjoint _ (m_t m :: m_tau m :: m_x m ++ m_y m ++ m_p m ++ m_theta m ++ m_u_par m) (m_x_0 m ++ o_eta (k_problem k)) x).
        + cbn [app]. rewrite <- !app_assoc. exact N.
        + destruct Hc as [Hc|Hc]; [left; exact Hc | right; right; exact Hc].
        + apply in_app_iff. left. exact H0. }
    apply same_outside; assumption.
  Qed.

  (** Evaluation of the relaxed equations. *)
  Lemma in_controls_value : forall i tau es, map (eval F (at_point k q i tau)) (relaxed_in_controls m es) = map (value_on F k q i tau) es.
  Proof.
    intros i tau es. unfold relaxed_in_controls, subst_vec. rewrite map_map. apply map_ext. intros e.
    unfold value_on. rewrite eval_assign. reflexivity.
  Qed.

  Lemma evaluated : forall i e es f out j tau,
      i < k_elements k -> fits F k env rs q' i e ->
      element_function k (e_a e) (e_b e) es = Ok f ->
      evaluate points k e (sort_times (times_of k e (algebraic_taus points k))) (f, times_of k e (algebraic_taus points k)) = Ok out ->
      length out = k_degree k /\
      (nth_error pts j = Some tau -> exists o, nth_error out j = Some o /\ vals F env o (map (eval F (at_point k q i tau)) es)).
  Proof.
    intros i e es f out j tau Hi Hf Hfun Hev.
    assert (Hs : Sorted Qlt (algebraic_taus points k)).
    { unfold algebraic_taus. destruct Hpts as [_ [S _]]. inversion S; assumption. }
    assert (H := evaluate_ok F points k env s rs q' HF T Hpts Srs describes_q par_length th_rows x0_length HK i e Hi Hf es f
                   (times_of k e (algebraic_taus points k)) (times_of k e (algebraic_taus points k)) (algebraic_taus points k) out
                   (times_related F k env rs q' i e Hf _)
                   (times_sorted F k env s rs q' T par_length x0_length HK i e Hf _ Hs) (fun x Hx => Hx) Hfun Hev).
    split; [rewrite (Forall2_len _ _ _ _ _ H); apply Hpts|]. intros Ht.
    destruct (Forall2_nth' _ _ _ _ _ _ _ H Ht) as [o [Ho V]]. exists o. split; [exact Ho|].
    replace (map (eval F (at_point k q i tau)) es) with (map (eval F (at_point k q' i tau)) es); [exact V|].
    apply map_ext_in. intros x Hx. apply (accepted_value _ _ _ _ _ _ _ Hfun Hx Hi).
  Qed.

  (** The outputs at one point of one element. *)
  Record point_outcome (i : nat) (tau : Q) (mu_v : list Q) (o : list expr * list expr * list expr) : Prop := mkOutcome
    { po_alg : vals F env (snd (fst o)) (map (value_on F k q i tau) (ag_alg a));
      po_eq : vals F env (snd o) (map (value_on F k q i tau) (ag_eq a));
      po_size : length (fst (fst o)) = n;
      po_nu : forall l nu_e g w, nth_error (ag_nu_pol a) l = Some nu_e -> nth_error (relaxed_equations a) l = Some g ->
        nth_error mu_v l = Some w -> exists x, nth_error (fst (fst o)) l = Some x /\
        (eval F env x == eval F (at_point k q i tau) nu_e + w * value_on F k q i tau g)%Q }.

  Lemma nu_count : length (ag_nu_pol a) = n.
  Proof. destruct (ca_nu _ _ _ _ _ C) as [par' [_ [_ [H _]]]]. exact H. Qed.

  Lemma element_outcome : forall i e mus mu_v cols, i < k_elements k -> fits F k env rs q' i e ->
      vals F env mus mu_v -> length mu_v = n -> element_update points a mus e = Ok cols ->
      length cols = k_degree k /\
      forall j tau, nth_error pts j = Some tau -> exists o, nth_error cols j = Some o /\ point_outcome i tau mu_v o.
  Proof.
    intros i e mus mu_v cols Hi Hf Hmu Lmu H. unfold element_update in H. cbv zeta in H. fold k m in H.
    destruct (element_function k (e_a e) (e_b e) (ag_nu_pol a)) as [f_nu|] eqn:E1; [|discriminate].
    destruct (element_function k (e_a e) (e_b e) (relaxed_in_controls m (ag_alg a))) as [f_alg|] eqn:E2; [|discriminate].
    destruct (element_function k (e_a e) (e_b e) (relaxed_in_controls m (ag_eq a))) as [f_eq|] eqn:E3; [|discriminate].
    destruct (control_function k (e_a e) (e_b e)) as [f_u|]; [|discriminate].
    destruct (res_map _ (sort_times _)) as [us|]; [|discriminate].
    destruct (evaluate points k e _ (f_nu, _)) as [nus|] eqn:V1; [|discriminate].
    destruct (evaluate points k e _ (f_alg, _)) as [algs|] eqn:V2; [|discriminate].
    destruct (evaluate points k e _ (f_eq, _)) as [eqs|] eqn:V3; [|discriminate].
    pose proof (res_map_ok _ _ _ _ _ H) as HR.
    split; [rewrite <- (Forall2_len _ _ _ _ _ HR); apply seq_length|]. intros j tau Hj.
    assert (Hjk : j < k_degree k).
    { destruct Hpts as [L _]. fold pts in L. rewrite <- L. apply nth_error_Some. congruence. }
    destruct (Forall2_nth _ _ _ _ _ _ _ HR (nth_seq _ _ Hjk)) as [o [Ho Hu]]. exists o. split; [exact Ho|].
    destruct (proj2 (evaluated i e _ f_nu nus j tau Hi Hf E1 V1) Hj) as [nu_j [N1 W1]].
    destruct (proj2 (evaluated i e _ f_alg algs j tau Hi Hf E2 V2) Hj) as [al_j [N2 W2]].
    destruct (proj2 (evaluated i e _ f_eq eqs j tau Hi Hf E3 V3) Hj) as [eq_j [N3 W3]].
    rewrite in_controls_value in W2, W3.
    unfold update_point in Hu. unfold at_index in Hu. rewrite N1, N2, N3 in Hu.
    destruct (zip_vec OMul mus (al_j ++ eq_j)) as [step|] eqn:Z1; [|discriminate].
    destruct (zip_vec OAdd nu_j step) as [v|] eqn:Z2; [|discriminate]. injection Hu as <-.
    assert (VR : vals F env (al_j ++ eq_j) (map (value_on F k q i tau) (relaxed_equations a))).
    { unfold relaxed_equations. rewrite map_app. apply vals_app; assumption. }
    assert (L1 := vals_length _ _ _ _ Hmu). assert (L2 := vals_length _ _ _ _ VR). assert (L3 := vals_length _ _ _ _ W1).
    rewrite map_length in L2, L3. rewrite nu_count in L3. fold n in L2. change (length (relaxed_equations a)) with n in L2.
    assert (LZ : length mus = length (al_j ++ eq_j)) by lia.
    assert (LS := zip_vec_length _ _ _ _ LZ Z1).
    assert (LZ2 : length nu_j = length step) by lia.
    constructor; cbn [fst snd].
    - exact W2.
    - exact W3.
    - rewrite (zip_vec_length _ _ _ _ LZ2 Z2). exact L3.
    - intros l nu_e g w Hn Hg Hw.
      destruct (vals_nth' _ _ _ _ _ _ Hmu Hw) as [x1 [X1 Y1]].
      destruct (vals_nth' _ _ _ _ _ _ VR (map_nth_error _ _ _ Hg)) as [x2 [X2 Y2]].
      destruct (vals_nth' _ _ _ _ _ _ W1 (map_nth_error _ _ _ Hn)) as [x3 [X3 Y3]].
      eexists. split; [apply (zip_vec_nth _ _ _ _ _ _ _ LZ2 Z2 X3 (zip_vec_nth _ _ _ _ _ _ _ LZ Z1 X1 X2))|].
      cbn [eval binop_eval]. rewrite Y1, Y2, Y3. reflexivity.
  Qed.

  (** The polynomial of a multiplier has the value given for the point. *)
  Lemma nu_at_point : forall i j tau l nu_e, i < k_elements k -> nth_error pts j = Some tau ->
      nth_error (ag_nu_pol a) l = Some nu_e -> exists x,
      nth_error (nth i thv []) (length own_theta + (j * n + l)) = Some x /\ (eval F (at_point k q i tau) nu_e == x)%Q.
  Proof.
    intros i j tau l nu_e Hi Hj Hl. destruct (ca_nu _ _ _ _ _ C) as [par' [Eth [Lpar [_ Hnu]]]].
    fold k m n in Eth, Lpar, Hnu. 
    assert (Hlt : j * n + l < length par').
    { rewrite Lpar. assert (l < n) by (rewrite <- nu_count; apply nth_error_Some; congruence).
      assert (j < length pts) by (apply nth_error_Some; congruence). nia. }
    destruct (nth_error par' (j * n + l)) as [x|] eqn:Ex; [|apply nth_error_None in Ex; lia].
    assert (Etau : at_point k q' i tau (m_tau m) = tau) by apply (point_tau k q' T).
    assert (Etau2 : at_point k q i tau (m_tau m) = tau) by apply (point_tau k q T).
    assert (Ht := point_theta points k env s rs q' T Srs describes_q par_length th_rows x0_length i tau Hi).
    fold m in Ht. cbn [q_theta q'] in Ht. rewrite (rd_theta _ _ _ _ _ _ R i Hi) in Ht.
    exists (at_point k q' i tau x). split.
    - rewrite <- Ht, Eth, nth_error_map, nth_error_app2 by lia.
      replace (length own_theta + (j * n + l) - length own_theta) with (j * n + l) by lia. rewrite Ex. reflexivity.
    - assert (Eq : (eval F (at_point k q i tau) nu_e == at_point k q i tau x)%Q).
      { apply (Hnu _ l j tau nu_e x Hj Hl Ex). rewrite Etau2. reflexivity. }
      rewrite Eq. 
      assert (Eq' : (eval F (at_point k q' i tau) (EVar x) == eval F (at_point k q i tau) (EVar x))%Q).
      { cbn [eval]. rewrite (same_outside i tau x Hi); [reflexivity|]. intros H0.
        assert (N : NoDup (problem_symbols k)) by apply (tr_symbols _ T). unfold problem_symbols in N. fold m in N.
        do 2 (apply NoDup_cons_iff in N; destruct N as [_ N]). do 3 apply NoDup_app_r in N.
        rewrite Eth, <- app_assoc in N. apply NoDup_app_r in N.
        apply (NoDup_app_disjoint _ _ _ x N (nth_error_In _ _ Ex)). rewrite !in_app_iff. tauto. }
      cbn [eval] in Eq'. rewrite Eq'. reflexivity.
  Qed.

  (** ** All elements *)

  (** The numbers at one point of one element. *)
  Record numbers_at (i j : nat) (tau : Q) (mu_v : list Q) (o : list Q * list Q * list Q) : Prop := mkNumbers
    { nb_values : Forall2 Qeq (snd (fst o) ++ snd o) (map (value_on F k q i tau) (relaxed_equations a));
      nb_alg : Forall2 Qeq (snd (fst o)) (map (value_on F k q i tau) (ag_alg a));
      nb_eq : Forall2 Qeq (snd o) (map (value_on F k q i tau) (ag_eq a));
      nb_size : length (fst (fst o)) = n;
      nb_nu : forall l old g w, nth_error (nth i thv []) (length own_theta + (j * n + l)) = Some old ->
        nth_error (relaxed_equations a) l = Some g -> nth_error mu_v l = Some w ->
        exists x, nth_error (fst (fst o)) l = Some x /\ (x == old + w * value_on F k q i tau g)%Q }.

  Variables (own_v mu_v : list Q).
  Hypothesis Ep : p_v = own_v ++ mu_v.
  Hypothesis Lown : length own_v = length own_p.
  Hypothesis Lmu : length mu_v = n.
  Variable mus : list expr.
  Hypothesis Hmus : index_vec (map EVar par) (find_syms (ag_mu_sym a) (m_p m)) = Ok mus.

  Lemma mus_vals : vals F env mus mu_v.
  Proof.
    assert (Em : m_p m = own_p ++ ag_mu_sym a) by apply (ca_mu _ _ _ _ _ C).
    assert (Lm : length (ag_mu_sym a) = n) by apply (ca_weights _ _ _ _ _ C).
    assert (Ef : find_syms (ag_mu_sym a) (m_p m) = seq (length own_p) n).
    { rewrite <- Lm. assert (N := p_NoDup k T). fold m in N. rewrite Em in N |- *. exact (find_suffix _ _ N). }
    rewrite Ef in Hmus.
    assert (Lmus : length mus = n).
    { unfold index_vec in Hmus. destruct (forallb _ _) eqn:E; [|discriminate]. injection Hmus as <-.
      rewrite forallb_forall in E. assert (G := gather_in_range _ (map EVar par) (seq (length own_p) n) (fun x Hx => proj1 (Nat.ltb_lt _ _) (E x Hx))).
      apply (f_equal (@length _)) in G. rewrite !map_length, seq_length in G. symmetry. exact G. }
    apply vals_intro; [lia|]. intros l x v Hx Hv.
    assert (Hl : l < n) by (rewrite <- Lmus; apply nth_error_Some; congruence).
    assert (Hs : nth_error (seq (length own_p) n) l = Some (length own_p + l)).
    { rewrite (nth_error_nth' _ 0) by (rewrite seq_length; exact Hl). rewrite seq_nth by exact Hl. reflexivity. }
    rewrite (index_vec_nth _ _ _ _ _ _ Hmus Hs), nth_error_map in Hx.
    destruct (nth_error par (length own_p + l)) as [y|] eqn:Ey; [|discriminate]. injection Hx as <-. cbn [eval].
    assert (E : nth_error p_v (length own_p + l) = Some (env y)).
    { rewrite <- env_par. apply map_nth_error, Ey. }
    rewrite Ep, nth_error_app2 in E by lia. replace (length own_p + l - length own_v) with l in E by lia.
    rewrite Hv in E. injection E as ->. reflexivity.
  Qed.

  Variables (outs : list (list (list expr * list expr * list expr))) (out : list (list (list Q * list Q * list Q))).
  Hypothesis Houts : res_map (element_update points a mus)
      (elements k dt bps (with_last_state rs) (map EVar par) (map (map EVar) th)) = Ok outs.
  Hypothesis Hcall : call_update F (mkUpdate [ag_variables a; par; concat th] outs) raw p_v (concat thv) = Ok out.

  Lemma out_is : out = map (map (fun o => (map (eval F env) (fst (fst o)), map (eval F env) (snd (fst o)), map (eval F env) (snd o)))) outs.
  Proof.
    unfold call_update in Hcall. cbn [uf_in uf_out] in Hcall.
    rewrite (fit_all_ok [ag_variables a; par; concat th] [map EConst raw; map EConst p_v; map EConst (concat thv)]) in Hcall.
    - injection Hcall as <-. apply map_ext. intros l. apply map_ext. intros o.
      assert (E : forall es, map (eval F (fun _ => 0%Q)) (subst_vec es (concat [ag_variables a; par; concat th])
                     (concat [map EConst raw; map EConst p_v; map EConst (concat thv)])) = map (eval F env) es).
      { intros es. unfold subst_vec. rewrite map_map. apply map_ext. intros e. rewrite eval_assign. unfold env.
        assert (Em : map (eval F (fun _ => 0%Q)) (concat [map EConst raw; map EConst p_v; map EConst (concat thv)]) = raw ++ p_v ++ concat thv).
        { cbn [concat]. rewrite app_nil_r, !map_app, !map_map. cbn [eval]. rewrite !map_id. reflexivity. }
        rewrite Em. reflexivity. }
      rewrite !E. reflexivity.
    - constructor; [rewrite map_length; symmetry; apply raw_length|].
      constructor; [rewrite map_length, par_length; symmetry; exact Lp|].
      constructor; [rewrite map_length; apply th_length | constructor].
  Qed.

  Lemma vals_numbers : forall es vs, vals F env es vs -> Forall2 Qeq (map (eval F env) es) vs.
  Proof. intros es vs H. induction H; constructor; assumption. Qed.

  Lemma out_numbers : length out = k_elements k /\
      forall i, i < k_elements k -> exists cols, nth_error out i = Some cols /\ length cols = k_degree k /\
        forall j tau, nth_error pts j = Some tau -> exists o, nth_error cols j = Some o /\ numbers_at i j tau mu_v o.
  Proof.
    pose proof (res_map_ok _ _ _ _ _ Houts) as H. rewrite out_is.
    assert (L : length outs = k_elements k).
    { rewrite <- (Forall2_len _ _ _ _ _ H). unfold elements. rewrite map_length, seq_length. reflexivity. }
    split; [rewrite map_length; exact L|]. intros i Hi.
    destruct (nth_error outs i) as [cols|] eqn:Ec; [|apply nth_error_None in Ec; lia].
    destruct (Forall2_nth' _ _ _ _ _ _ _ H Ec) as [e [He Hup]].
    destruct (element_fits i e He) as [_ Hf].
    destruct (element_outcome i e mus mu_v cols Hi Hf mus_vals Lmu Hup) as [Lc Hc].
    exists (map (fun o => (map (eval F env) (fst (fst o)), map (eval F env) (snd (fst o)), map (eval F env) (snd o))) cols).
    split; [apply (map_nth_error _ _ _ Ec)|]. split; [rewrite map_length; exact Lc|].
    intros j tau Hj. destruct (Hc j tau Hj) as [o [Ho [P1 P2 P3 P4]]].
    eexists. split; [apply (map_nth_error _ _ _ Ho)|]. constructor; cbn [fst snd].
    - rewrite <- map_app. apply vals_numbers. unfold relaxed_equations. rewrite map_app. apply vals_app; assumption.
    - apply vals_numbers, P1.
    - apply vals_numbers, P2.
    - rewrite map_length. exact P3.
    - intros l old g w Hold Hg Hw.
      assert (Hl : l < length (ag_nu_pol a)).
      { rewrite nu_count. unfold n, relaxed_count. apply nth_error_Some. congruence. }
      destruct (nth_error (ag_nu_pol a) l) as [nu_e|] eqn:En; [|apply nth_error_None in En; lia].
      destruct (P4 l nu_e g w En Hg Hw) as [x [Ex Vx]].
      destruct (nu_at_point i j tau l nu_e Hi Hj En) as [old' [Eo Vo]]. rewrite Hold in Eo. injection Eo as <-.
      exists (eval F env x). split; [apply map_nth_error, Ex|]. rewrite Vx, Vo. reflexivity.
  Qed.
End Updating.

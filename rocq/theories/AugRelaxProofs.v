(** Proofs about relaxing problems for the augmented Lagrangian method. *)
From Coq Require Import String Qabs Lqa Sorted Permutation.
From Verif Require Import Base BaseProofs UtilModel UtilProofs ExprModel ExprProofs NlpModel SysModel SysSpec SysProofs
   OcpModel OcpSpec OcpProofs OcpMoreProofs SimModel LagModel LagSpec LagProofs DiscModel DiscSpec ColSpec ColEvalProofs AugModel AugSpec.
Local Open Scope list_scope.
Local Open Scope cmd_scope.

(** ** Records *)

Lemma ocp_ext : forall a b : ocp,
    o_t_0 a = o_t_0 b -> o_t_f a = o_t_f b -> o_x_0 a = o_x_0 b -> o_model a = o_model b -> o_eta a = o_eta b
    -> o_p_opt a = o_p_opt b -> o_theta_opt a = o_theta_opt b -> o_x_min a = o_x_min b -> o_x_max a = o_x_max
    b -> o_y_min a = o_y_min b -> o_y_max a = o_y_max b -> o_u_min a = o_u_min b -> o_u_max a = o_u_max b ->
    o_du_min a = o_du_min b -> o_du_max a = o_du_max b -> o_p_min a = o_p_min b -> o_p_max a = o_p_max b ->
    o_th_min a = o_th_min b -> o_th_max a = o_th_max b -> o_h a = o_h b -> o_h_initial a = o_h_initial b ->
    o_h_final a = o_h_final b -> o_g_eq a = o_g_eq b -> o_g_ineq a = o_g_ineq b -> o_when_eq a = o_when_eq b
    -> o_when_ineq a = o_when_ineq b -> o_L a = o_L b -> o_V a = o_V b -> o_S a = o_S b -> o_last_u a =
    o_last_u b -> o_y_guess a = o_y_guess b -> o_u_guess a = o_u_guess b -> o_positive a = o_positive b ->
    o_x_cost a = o_x_cost b -> a = b.
Proof. intros [] []. cbn. intros. subst. reflexivity. Qed.
Lemma model_ext : forall a b : model,
    m_x a = m_x b -> m_x_0 a = m_x_0 b -> m_ode a = m_ode b -> m_y a = m_y b -> m_alg a = m_alg b -> m_u a =
    m_u b -> m_u_par a = m_u_par b -> m_u_expr a = m_u_expr b -> m_parametrized a = m_parametrized b -> m_p a
    = m_p b -> m_theta a = m_theta b -> m_t a = m_t b -> m_tau a = m_tau b -> m_adjoint a = m_adjoint b -> a
    = b.
Proof. intros [] []. cbn. intros. subst. reflexivity. Qed.
Lemma u_guess_same : forall o v, o_u_guess o = v -> set_o_u_guess v o = o.
Proof. intros o v H. apply ocp_ext; try reflexivity. symmetry. exact H. Qed.

(** ** The penalty *)

Lemma esum_value : forall F env l, (eval F env (esum l) == fold_right (fun e acc => eval F env e + acc) 0 l)%Q.
Proof.
  intros F env l. induction l as [|e l IH]; cbn [esum fold_right eval]; [reflexivity|].
  unfold binop_eval. change (fold_right (EBin OAdd) (EConst 0) l) with (esum l). rewrite IH. reflexivity.
Qed.

Lemma penalty_is : forall F env nu mu g,
    (eval F env (penalty nu mu g) == penalty_value (map env nu) (map env mu) (map (eval F env) g))%Q.
Proof.
  intros F env nu mu g. unfold penalty, penalty_value. cbn [eval]. unfold binop_eval at 1. rewrite !esum_value.
  apply Qplus_comp.
  - revert g. induction nu as [|v nu IH]; intros [|e g]; cbn [combine map fold_right dot eval]; try reflexivity.
    unfold binop_eval. rewrite IH. reflexivity.
  - revert g. induction mu as [|v mu IH]; intros [|e g]; cbn [combine map fold_right dot eval]; try ring.
    unfold binop_eval. cbn [fst snd]. rewrite IH. ring.
Qed.

Lemma add_to_L_ok : forall F nu mu g e s s',
    (forall env, (eval F env e == penalty_value (map env nu) (map env mu) (map (eval F env) g))%Q) ->
    add_to_L e s = (s', Ok tt) ->
    exists L', with_penalty F nu mu g (o_L (rx_problem s)) L' /\
      s' = set_problem (set_o_L L' (rx_problem s)) s.
Proof.
  intros F nu mu g e s s' He H. unfold add_to_L, on_problem in H.
  destruct (cset _ set_o_L (rx_problem s)) as [o1 r1] eqn:E. injection H as <- ->.
  apply cset_ok in E. destruct E as [L' [EL ->]]. exists L'. split; [|reflexivity].
  intros env. unfold zip_vec in EL.
  assert (HE : forall l, (eval F env (EBin OAdd l e) ==
    eval F env l + penalty_value (map env nu) (map env mu) (map (eval F env) g))%Q).
  { intros l. cbn [eval]. unfold binop_eval. rewrite He. reflexivity. }
  destruct (o_L (rx_problem s)) as [|l [|l2 rest]]; cbn [length Nat.eqb combine map fst snd] in EL; injection EL as <-.
  - constructor.
  - repeat constructor. apply HE.
  - constructor; [apply HE|]. constructor; [apply HE|].
    induction rest; cbn [map]; constructor; [apply HE|assumption].
Qed.

(** ** Steps on the problem *)

Lemma of_problem_ok : forall A (f : ocp -> res A) s s' a,
    of_problem f s = (s', Ok a) -> s' = s /\ f (rx_problem s) = Ok a.
Proof. intros A f s s' a H. injection H as <- H. auto. Qed.

Lemma on_problem_ok : forall A (c : cmd ocp A) s s' a,
    on_problem c s = (s', Ok a) -> exists o, c (rx_problem s) = (o, Ok a) /\ s' = set_problem o s.
Proof.
  intros A c s s' a H. unfold on_problem in H. destruct (c (rx_problem s)) as [o r]. injection H as <- ->. eauto.
Qed.

Lemma index_vec_picks : forall A (l : list A) idx v, index_vec l idx = Ok v -> picks l idx v.
Proof.
  intros A l idx v H. unfold index_vec in H. destruct (forallb _ idx) eqn:E; [|discriminate]. injection H as <-.
  apply gather_in_range. intros i Hi. rewrite forallb_forall in E. specialize (E i Hi). cbv beta in E.
  apply Nat.ltb_lt in E. exact E.
Qed.

Lemma picks_length : forall A (l : list A) idx v, picks l idx v -> length v = length idx.
Proof. intros A l idx v H. apply (f_equal (@length _)) in H. rewrite !map_length in H. auto. Qed.
Lemma picks_fun : forall A (l : list A) idx v w, picks l idx v -> picks l idx w -> v = w.
Proof. intros A l idx v w H1 H2. apply map_Some_inj. congruence. Qed.
Lemma picks_In : forall A (l : list A) idx v a,
    picks l idx v -> (In a v <-> exists i, In i idx /\ nth_error l i = Some a).
Proof.
  intros A l idx v a H. split.
  - intros Ha. apply (in_map Some) in Ha. rewrite <- H in Ha. apply in_map_iff in Ha. destruct Ha as [i [E Hi]]. eauto.
  - intros [i [Hi E]]. apply (in_map (nth_error l)) in Hi. rewrite H, E in Hi. apply in_map_iff in Hi.
    destruct Hi as [b [Eb Hb]]. injection Eb as ->. exact Hb.
Qed.

(** ** What is left *)

Lemma others_ext : forall A (l : list A) i j,
    (forall k, (k < length l)%nat -> In k i <-> In k j) -> others i l = others j l.
Proof.
  intros A l i j H. unfold others. f_equal. apply filter_ext_in. intros [k a] Hin. cbn [fst].
  apply in_combine_l, in_seq in Hin. specialize (H k (proj2 Hin)). f_equal.
  destruct (existsb (Nat.eqb k) i) eqn:E1, (existsb (Nat.eqb k) j) eqn:E2; try reflexivity.
  - apply (memb_nat k i) in E1. apply H in E1. apply (memb_nat k j) in E1. unfold memb in E1. congruence.
  - apply (memb_nat k j) in E2. apply H in E2. apply (memb_nat k i) in E2. unfold memb in E2. congruence.
Qed.

Lemma remove_at_others : forall A (l : list A) idx r, remove_at idx l = Ok r -> r = others idx l.
Proof.
  intros A l idx r H. unfold remove_at in H. apply remove_by_indices_form in H. subst r.
  rewrite gather_filter_seq. unfold others, enumerate. f_equal. apply filter_ext. intros [k a]. cbn [fst]. f_equal.
  destruct (existsb (Nat.eqb k) idx) eqn:E.
  - apply memb_Z. apply in_map. apply (memb_nat k idx). exact E.
  - destruct (memb Z.eqb (Z.of_nat k) (map Z.of_nat idx)) eqn:Em; [|reflexivity].
    apply memb_Z in Em. apply in_map_iff in Em. destruct Em as [j [Hj Hin]]. apply Nat2Z.inj in Hj. subst j.
    apply (memb_nat k idx) in Hin. unfold memb in Hin. congruence.
Qed.

Lemma remove_others : forall A (eqb : A -> A -> bool) (l v r : list A) idx,
    (forall x y, eqb x y = true <-> x = y) -> NoDup l -> picks l idx v ->
    remove_variables_from_vector eqb v l = Ok r -> r = others idx l.
Proof.
  intros A eqb l v r idx Heq Hd Hp H. apply (remove_variables_content eqb Heq) in H. subst r.
  unfold others. symmetry.
  apply (filter_enumerate_snd_gen A (fun w => negb (memb eqb w v)) (fun k => negb (existsb (Nat.eqb k) idx)) l 0).
  intros i w Hi. cbn [Nat.add]. f_equal. change (existsb (Nat.eqb i) idx) with (memb Nat.eqb i idx).
  destruct (memb eqb w v) eqn:Ew.
  - apply memb_nat. apply (memb_spec A eqb Heq) in Ew. apply (picks_In A l idx v w Hp) in Ew.
    destruct Ew as [j [Hj Ej]]. enough (i = j) by congruence.
    apply (proj1 (NoDup_nth_error l) Hd); [apply nth_error_Some; congruence|congruence].
  - destruct (memb Nat.eqb i idx) eqn:Em; [|reflexivity]. apply memb_nat in Em.
    assert (Hin : In w v) by (apply (picks_In A l idx v w Hp); eauto).
    apply (memb_spec A eqb Heq) in Hin. congruence.
Qed.

Lemma found_others : forall A (l : list sym) (w : list A) v idx,
    NoDup l -> picks l idx v -> others (rev (find_syms v l)) w = others idx w.
Proof.
  intros A l w v idx Hd Hp. destruct (Nat.le_gt_cases (length w) (length l)) as [Hl|Hl].
  - apply others_ext. intros k Hk. rewrite <- in_rev.
    rewrite (find_indices_In sym_eqb Nat.eqb_eq). split.
    + intros [s [Hs Ek]]. apply (picks_In _ _ _ _ _ Hp) in Hs. destruct Hs as [j [Hj Ej]].
      enough (k = j) by congruence.
      apply (proj1 (NoDup_nth_error l) Hd); [apply nth_error_Some; congruence|congruence].
    + intros Hi. destruct (nth_error l k) as [s|] eqn:E; [|apply nth_error_None in E; lia].
      exists s. split; [apply (picks_In _ _ _ _ _ Hp); eauto|reflexivity].
  - apply others_ext. intros k Hk. rewrite <- in_rev.
    rewrite (find_indices_In sym_eqb Nat.eqb_eq). split.
    + intros [s [Hs Ek]]. apply (picks_In _ _ _ _ _ Hp) in Hs. destruct Hs as [j [Hj Ej]].
      enough (k = j) by congruence.
      apply (proj1 (NoDup_nth_error l) Hd); [apply nth_error_Some; congruence|congruence].
    + intros Hi. assert (Hr : exists s, nth_error l k = Some s).
      { apply (in_map (nth_error l)) in Hi. rewrite Hp in Hi. apply in_map_iff in Hi. destruct Hi as [s [E _]]. eauto. }
      destruct Hr as [s E]. exists s. split; [apply (picks_In _ _ _ _ _ Hp); eauto|exact E].
Qed.

(** ** Symbols *)

Lemma include_relax_ok : forall F opts g s s',
    include_relax_in_objective opts g s = (s', Ok tt) ->
    exists nu mu L',
      multiplied opts (length g) nu mu s s' /\ with_penalty F nu mu g (o_L (rx_problem s)) L' /\
      rx_alg s' = rx_alg s /\ rx_eq s' = rx_eq s /\
      rx_problem s' = set_o_L L' (with_parameters mu (rx_problem s)).
Proof.
  intros F opts g s s' H. unfold include_relax_in_objective in H.
  modk H. apply cbind_ok in H. destruct H as [s1 [nu [Hnu H]]]. apply cbind_ok in H. destruct H as [s2 [mu [Hmu H]]].
  unfold create_nu, new_symbols, cmodify, cret, cbind in Hnu. injection Hnu as Es1 Enu.
  unfold create_mu in Hmu. apply cbind_ok in Hmu. destruct Hmu as [s3 [v [Hv Hmu]]].
  unfold new_symbols in Hv. injection Hv as Es3 Ev.
  apply cbind_ok in Hmu. destruct Hmu as [s4 [[] [H4 Hmu]]]. apply on_problem_ok in H4. destruct H4 as [o4 [H4 E4]].
  apply on_model_ok in H4. destruct H4 as [m4 [H4 Eo4]]. unfold SysModel.include_parameter in H4. apply cmodify_ok in H4.
  apply cbind_ok in Hmu. destruct Hmu as [s5 [[] [H5 Hmu]]]. apply cmodify_ok in H5. cbv beta in H5.
  unfold cret in Hmu. assert (s2 = s5) by congruence. assert (mu = v) by congruence. clear Hmu. subst s2 mu.
  apply (add_to_L_ok F nu v g) in H; [|intros env; apply penalty_is].
  destruct H as [L' [HL E']].
  assert (P3 : rx_problem s3 = rx_problem s) by (rewrite <- Es3, <- Es1, E; reflexivity).
  assert (P5 : rx_problem s5 = with_parameters v (rx_problem s)).
  { rewrite H5, E4. cbn [rx_problem set_problem]. rewrite Eo4, H4, P3. reflexivity. }
  exists nu, v, L'. split; [|split; [|split; [|split]]].
  - assert (Ln : length nu = length g) by (rewrite <- Enu; apply seq_length).
    assert (Lv : length v = length g) by (rewrite <- Ev; apply seq_length).
    constructor.
    + rewrite E', H5, E4, <- Es3, <- Es1, E. reflexivity.
    + rewrite E', H5, E4, <- Es3, <- Es1, E, <- Enu, E. reflexivity.
    + exact Ln.
    + rewrite E', H5, E4, <- Es3, <- Es1, E. reflexivity.
    + exact Lv.
    + rewrite E', H5, E4, <- Es3, <- Es1, E. reflexivity.
    + rewrite <- Enu, <- Ev, <- Es1, E. cbn [rx_next set_n_relax]. rewrite <- seq_app. apply seq_NoDup.
    + rewrite <- Enu, <- Ev, <- Es1, E. cbn [rx_next set_n_relax]. rewrite <- seq_app. apply Forall_forall.
      intros i Hi. apply in_seq in Hi. rewrite E', H5, E4, <- Es3, <- Es1, E.
      cbn [rx_next set_n_relax set_problem]. lia.
    + rewrite E', H5, E4, <- Es3, <- Es1, E. split; reflexivity.
    + rewrite E', H5, E4, <- Es3, <- Es1, E. cbn. lia.
  - rewrite P5 in HL. exact HL.
  - rewrite E', H5, E4, <- Es3, <- Es1, E. reflexivity.
  - rewrite E', H5, E4, <- Es3, <- Es1, E. reflexivity.
  - rewrite E', P5. reflexivity.
Qed.

(** ** Variables moved to the controls *)

Lemma broadcast_same : forall (l : list ext) n, length l = n -> broadcast l n = l.
Proof.
  intros [|v [|w l]] n H; cbn [length] in H; subst n; reflexivity.
Qed.

Definition guessed (new : option (list Q)) (o : ocp) : option (list Q) :=
  match new with
  | None => o_u_guess o
  | Some g => if (length (m_u (o_model o)) =? 0)%nat then Some g else option_map (fun g' => g' ++ g) (o_u_guess o)
  end.

Lemma include_control_ok : forall u lo hi g o o',
    length lo = length u -> length hi = length u ->
    ocp_include_control u (Some lo) (Some hi) None None g o = (o', Ok tt) ->
    o' = set_o_u_guess (guessed g o) (with_controls u lo hi o) /\
    (g = None -> o_u_guess o = None) /\ (forall v, g = Some v -> length v = length u).
Proof.
  intros u lo hi g o o' Hlo Hhi H. unfold ocp_include_control in H. cbv zeta in H. unfold given in H.
  rewrite (broadcast_same lo), (broadcast_same hi) in H by assumption.
  rewrite (broadcast_same (neg_inf _)), (broadcast_same (pos_inf _)) in H by (unfold neg_inf, pos_inf; apply repeat_length).
  grd H. grd H. grd H. grd H. grd H. grd H. do 5 modk H. apply on_model_ok in H. destruct H as [m' [Hm E']].
  unfold include_control in Hm. modk Hm. modk Hm. apply cmodify_ok in Hm.
  split; [|split].
  - assert (E6 : o4 = set_o_u_guess (guessed g o)
      (set_o_du_max (o_du_max o ++ pos_inf (length u)) (set_o_du_min (o_du_min o ++ neg_inf (length u))
      (set_o_u_max (o_u_max o ++ hi) (set_o_u_min (o_u_min o ++ lo) o))))).
    { rewrite E3. unfold guessed. destruct g as [v|].
      - rewrite E2, E1, E0, E. gfields. destruct (length (m_u (o_model o)) =? 0)%nat; [reflexivity|].
        destruct o as [? ? ? ? ? ? ? ? ? ? ? ? ? ? ? ? ? ? ? ? ? ? ? ? ? ? ? ? ? ? ? ug ? ?]. destruct ug; reflexivity.
      - rewrite E2, E1, E0, E. destruct o. reflexivity. }
    assert (Em : o_model o4 = o_model o) by (rewrite E6; reflexivity).
    rewrite Em in *. rewrite E', Hm, E5, E4, E6. reflexivity.
  - intros ->. destruct (o_u_guess o); [discriminate|reflexivity].
  - intros v ->. eqlen. auto.
Qed.

Lemma remove_algebraic_ok : forall same idx vidx y g o o',
    (forall a b, same a b = true <-> a = b) ->
    NoDup (m_y (o_model o)) -> NoDup (m_alg (o_model o)) ->
    picks (m_y (o_model o)) vidx y -> picks (m_alg (o_model o)) idx g ->
    ocp_remove_algebraic same y (Some g) o = (o', Ok tt) -> o' = without_algebraic idx vidx o.
Proof.
  intros same idx vidx y g o o' Hs Dy Da Py Pg H. unfold ocp_remove_algebraic in H. cbv zeta in H.
  setk' H. setk' H. apply cbind_ok in H. destruct H as [o2 [[] [H2 H]]].
  apply on_model_ok in H. destruct H as [m' [Hm E']].
  unfold remove_algebraic in Hm. apply cbind_ok in Hm. destruct Hm as [m1 [[] [H1 Hm]]].
  apply cset_ok in H1. destruct H1 as [ys [Hy E1]]. apply cset_ok in Hm. destruct Hm as [algs [Ha Em]].
  apply remove_at_others in Z. rewrite (found_others _ _ _ _ _ Dy Py) in Z.
  apply remove_at_others in Z0. rewrite (found_others _ _ _ _ _ Dy Py) in Z0.
  assert (E2 : o2 = set_o_y_guess (option_map (others vidx) (o_y_guess o)) o1).
  { destruct (o_y_guess o) as [gs|] eqn:Eg.
    - apply cset_ok in H2. destruct H2 as [w [Hw E2]]. rewrite E2.
      destruct (remove_at _ gs) as [z|] eqn:Ez; [|discriminate]. injection Hw as <-.
      apply remove_at_others in Ez. rewrite (found_others _ _ _ _ _ Dy Py) in Ez. rewrite Ez. reflexivity.
    - assert (o2 = o1) by (unfold cret in H2; congruence). subst o2. rewrite E0, E.
      cbn [option_map]. rewrite <- Eg. destruct o. reflexivity. }
  assert (M2 : o_model o2 = o_model o) by (rewrite E2, E0, E; reflexivity). rewrite M2 in *.
  apply (remove_others _ _ _ _ _ _ Nat.eqb_eq Dy Py) in Hy.
  rewrite E1 in Ha. change (m_alg (set_y ys (o_model o))) with (m_alg (o_model o)) in Ha.
  apply (remove_others _ _ _ _ _ _ Hs Da Pg) in Ha.
  rewrite E', Em, E1, E2, E0, E, Z, Z0, Hy, Ha, E. reflexivity.
Qed.

Lemma relax_algebraic_full : forall F same opts idx vidx s s',
    (forall a b, same a b = true <-> a = b) ->
    NoDup (m_y (o_model (rx_problem s))) -> NoDup (m_alg (o_model (rx_problem s))) ->
    relax_algebraic_equations same opts idx vidx s = (s', Ok tt) ->
    let o := rx_problem s in
    exists g y lo hi nu mu L' guess,
      picks (m_alg (o_model o)) idx g /\ picks (m_y (o_model o)) vidx y /\
      picks (o_y_min o) vidx lo /\ picks (o_y_max o) vidx hi /\
      multiplied opts (length g) nu mu s s' /\ with_penalty F nu mu g (o_L o) L' /\
      rx_alg s' = rx_alg s ++ g /\ rx_eq s' = rx_eq s /\
      rx_problem s' = without_algebraic idx vidx
        (set_o_u_guess guess (with_controls y lo hi (set_o_L L' (with_parameters mu o)))) /\
      guess_moved idx o (o_u_guess (rx_problem s')).
Proof.
  intros F same opts idx vidx s s' Hs Dy Da H o. unfold relax_algebraic_equations in H.
  apply cbind_ok in H. destruct H as [s0 [g [Hg H]]]. apply of_problem_ok in Hg. destruct Hg as [-> Hg].
  apply index_vec_picks in Hg. modk H.
  apply cbind_ok in H. destruct H as [s2 [[] [H2 H]]].
  apply (include_relax_ok F) in H2. destruct H2 as [nu [mu [L' [M [W [A2 [Q2 P2]]]]]]].
  apply cbind_ok in H. destruct H as [s3 [gs [Hgs H]]]. apply of_problem_ok in Hgs. destruct Hgs as [-> Hgs].
  apply cbind_ok in H. destruct H as [s3 [y [Hy H]]]. apply of_problem_ok in Hy. destruct Hy as [-> Hy].
  apply cbind_ok in H. destruct H as [s3 [hi [Hhi H]]]. apply of_problem_ok in Hhi. destruct Hhi as [-> Hhi].
  apply cbind_ok in H. destruct H as [s3 [lo [Hlo H]]]. apply of_problem_ok in Hlo. destruct Hlo as [-> Hlo].
  apply index_vec_picks in Hy, Hhi, Hlo.
  apply cbind_ok in H. destruct H as [s3 [[] [H3 H]]]. apply on_problem_ok in H3. destruct H3 as [o3 [H3 E3]].
  apply cbind_ok in H. destruct H as [s4 [y' [Hy' H]]]. apply of_problem_ok in Hy'. destruct Hy' as [-> Hy'].
  apply index_vec_picks in Hy'.
  apply on_problem_ok in H. destruct H as [o4 [H4 E4]].
  assert (P0 : rx_problem o0 = o) by (rewrite E; reflexivity). rewrite P0 in *.
  apply include_control_ok in H3;
    [|rewrite (picks_length _ _ _ _ Hlo), (picks_length _ _ _ _ Hy); reflexivity
     |rewrite (picks_length _ _ _ _ Hhi), (picks_length _ _ _ _ Hy); reflexivity].
  destruct H3 as [H3 G3].
  rewrite P2 in *. change (m_y (o_model (set_o_L L' (with_parameters mu o)))) with (m_y (o_model o)) in *.
  change (o_y_min (set_o_L L' (with_parameters mu o))) with (o_y_min o) in *.
  change (o_y_max (set_o_L L' (with_parameters mu o))) with (o_y_max o) in *.
  assert (GM : guess_moved idx o (guessed gs (set_o_L L' (with_parameters mu o)))).
  { unfold guess_moved. change (o_y_guess (set_o_L L' (with_parameters mu o))) with (o_y_guess o) in Hgs.
    destruct (o_y_guess o) as [v|].
    - destruct (index_vec v idx) as [l|] eqn:Ev; [|discriminate]. injection Hgs as <-.
      exists l. split; [apply index_vec_picks; exact Ev|]. unfold guessed.
      change (m_u (o_model (set_o_L L' (with_parameters mu o)))) with (m_u (o_model o)).
      change (o_u_guess (set_o_L L' (with_parameters mu o))) with (o_u_guess o).
      destruct (m_u (o_model o)); [reflexivity|]. cbn [length Nat.eqb]. destruct (o_u_guess o); reflexivity.
    - injection Hgs as <-. unfold guessed.
      change (o_u_guess (set_o_L L' (with_parameters mu o))) with (o_u_guess o) in *.
      split; [apply G3; reflexivity|apply G3; reflexivity]. }
  set (gg := guessed gs (set_o_L L' (with_parameters mu o))) in *. clearbody gg.
  assert (P3 : rx_problem s3 = o3) by (rewrite E3; reflexivity). rewrite P3, H3 in *.
  change (m_y (o_model (set_o_u_guess gg (with_controls y lo hi (set_o_L L' (with_parameters mu o))))))
    with (m_y (o_model o)) in Hy'.
  pose proof (picks_fun _ _ _ _ _ Hy Hy') as ->.
  apply (remove_algebraic_ok same idx vidx y' g) in H4; [|exact Hs|exact Dy|exact Da|exact Hy|exact Hg].
  exists g, y', lo, hi, nu, mu, L', gg.
  split; [exact Hg|]. split; [exact Hy|]. split; [exact Hlo|]. split; [exact Hhi|]. split; [|split; [exact W|]].
  - destruct M. constructor; try assumption; rewrite E4, E3; subst o0; assumption.
  - split; [rewrite E4, E3; cbn [rx_alg set_problem]; rewrite A2, E; reflexivity|].
    split; [rewrite E4, E3; cbn [rx_eq set_problem]; rewrite Q2, E; reflexivity|].
    split; [rewrite E4; exact H4|]. rewrite E4. cbn [rx_problem set_problem]. rewrite H4. exact GM.
Qed.

Lemma relax_algebraic_ok : forall F same opts idx vidx s s',
    (forall a b, same a b = true <-> a = b) ->
    NoDup (m_y (o_model (rx_problem s))) -> NoDup (m_alg (o_model (rx_problem s))) ->
    relax_algebraic_equations same opts idx vidx s = (s', Ok tt) ->
    let o := rx_problem s in
    exists g y lo hi nu mu L' guess,
      picks (m_alg (o_model o)) idx g /\ picks (m_y (o_model o)) vidx y /\
      picks (o_y_min o) vidx lo /\ picks (o_y_max o) vidx hi /\
      multiplied opts (length g) nu mu s s' /\ with_penalty F nu mu g (o_L o) L' /\
      rx_alg s' = rx_alg s ++ g /\ rx_eq s' = rx_eq s /\
      rx_problem s' = without_algebraic idx vidx
        (set_o_u_guess guess (with_controls y lo hi (set_o_L L' (with_parameters mu o)))).
Proof.
  intros F same opts idx vidx s s' Hs Dy Da H o.
  destruct (relax_algebraic_full F same opts idx vidx s s' Hs Dy Da H) as [g [y [lo [hi [nu [mu [L' [gg R]]]]]]]].
  exists g, y, lo, hi, nu, mu, L', gg. repeat match goal with H : _ /\ _ |- _ => destruct H end.
  repeat match goal with |- _ /\ _ => split end; assumption.
Qed.
Lemma relax_algebraic_guess : forall same opts idx vidx s s',
    (forall a b, same a b = true <-> a = b) ->
    NoDup (m_y (o_model (rx_problem s))) -> NoDup (m_alg (o_model (rx_problem s))) ->
    relax_algebraic_equations same opts idx vidx s = (s', Ok tt) ->
    guess_moved idx (rx_problem s) (o_u_guess (rx_problem s')).
Proof.
  intros same opts idx vidx s s' Hs Dy Da H.
  destruct (relax_algebraic_full (fun _ x => x) same opts idx vidx s s' Hs Dy Da H)
    as [g [y [lo [hi [nu [mu [L' [gg R]]]]]]]]. apply R.
Qed.

(** ** Time equalities *)

Fixpoint left_from {A : Type} (f : nat -> bool) (k : nat) (l : list A) : list A :=
  match l with [] => [] | a :: l' => if f k then left_from f (S k) l' else a :: left_from f (S k) l' end.
Lemma others_from : forall A (idx : list nat) (l : list A),
    others idx l = left_from (fun k => existsb (Nat.eqb k) idx) 0 l.
Proof.
  intros A idx l. unfold others. generalize 0%nat as k. induction l as [|a l IH]; intros k; cbn; [reflexivity|].
  destruct (existsb (Nat.eqb k) idx); cbn; rewrite <- IH; reflexivity.
Qed.
Lemma left_app : forall A f (a b : list A) k, left_from f k (a ++ b) = left_from f k a ++ left_from f (k + length a) b.
Proof.
  intros A f a. induction a as [|x a IH]; intros b k; cbn [app left_from length].
  - rewrite Nat.add_0_r. reflexivity.
  - rewrite IH. replace (S k + length a)%nat with (k + S (length a))%nat by lia. destruct (f k); reflexivity.
Qed.
Lemma left_ext : forall A f g (l : list A) k,
    (forall i, (k <= i < k + length l)%nat -> f i = g i) -> left_from f k l = left_from g k l.
Proof.
  intros A f g l. induction l as [|a l IH]; intros k H; cbn [left_from]; [reflexivity|].
  rewrite (IH (S k)) by (intros i Hi; apply H; cbn [length]; lia). rewrite (H k) by (cbn [length]; lia). reflexivity.
Qed.
Lemma left_all : forall A f (l : list A) k, (forall i, (k <= i)%nat -> f i = false) -> left_from f k l = l.
Proof.
  intros A f l. induction l as [|a l IH]; intros k H; cbn [left_from]; [reflexivity|].
  rewrite (H k) by lia. f_equal. apply IH. intros i Hi. apply H. lia.
Qed.

Lemma existsb_no : forall k js, Forall (fun j => j < k)%nat js -> forall i, (k <= i)%nat -> existsb (Nat.eqb i) js = false.
Proof.
  intros k js H i Hi. induction H; cbn [existsb]; [reflexivity|].
  rewrite IHForall. destruct (Nat.eqb_spec i x); [lia|reflexivity].
Qed.

Lemma pop_others : forall A (l l' : list A) i js,
    Forall (fun j => j < i)%nat js -> pop_at l i = Ok l' -> others js l' = others (i :: js) l.
Proof.
  intros A l l' i js Hj H. unfold pop_at in H. destruct (i <? length l)%nat eqn:Ei; [|discriminate].
  apply Nat.ltb_lt in Ei. injection H as <-. rewrite !others_from.
  assert (Ll : length (firstn i l) = i) by (rewrite firstn_length; lia).
  destruct (nth_error l i) as [x|] eqn:Ex; [|apply nth_error_None in Ex; lia].
  assert (Es : skipn i l = x :: skipn (S i) l).
  { clear -Ex. revert i Ex. induction l as [|a l IH]; intros [|i] Ex; cbn in *; try discriminate; [congruence|auto]. }
  rewrite <- (firstn_skipn i l) at 3. rewrite !left_app, Ll, Es. cbn [Nat.add left_from existsb].
  rewrite Nat.eqb_refl. cbn [orb]. f_equal.
  - apply left_ext. intros k Hk. destruct (Nat.eqb_spec k i); [lia|reflexivity].
  - rewrite !left_all; [reflexivity| |]; intros k Hk.
    + rewrite (existsb_no i js Hj) by lia. destruct (Nat.eqb_spec k i); [lia|reflexivity].
    + apply (existsb_no i js Hj). lia.
Qed.

Lemma insert_desc_in : forall i l x, In x (insert_desc i l) <-> x = i \/ In x l.
Proof.
  intros i l x. induction l as [|j l IH]; cbn [insert_desc].
  - cbn. intuition.
  - destruct (j <=? i)%nat; cbn [In]; [intuition|]. rewrite IH. intuition.
Qed.
Lemma sorted_desc_in : forall l x, In x (sorted_desc l) <-> In x l.
Proof.
  intros l x. induction l as [|i l IH]; cbn [sorted_desc fold_right]; [reflexivity|].
  rewrite insert_desc_in. fold (sorted_desc l). rewrite IH. cbn [In]. intuition.
Qed.
Lemma insert_desc_sorted : forall i l,
    ~ In i l -> StronglySorted gt l -> StronglySorted gt (insert_desc i l).
Proof.
  intros i l Hn H. induction H as [|j l Hs IH Hf]; cbn [insert_desc].
  - repeat constructor.
  - destruct (j <=? i)%nat eqn:E.
    + apply Nat.leb_le in E. assert (j < i)%nat by (destruct (Nat.eq_dec j i); [subst; exfalso; apply Hn; left; reflexivity|lia]).
      constructor; [constructor; assumption|]. constructor; [lia|].
      rewrite Forall_forall in *. intros x Hx. specialize (Hf x Hx). lia.
    + apply Nat.leb_gt in E. constructor; [apply IH; intros C; apply Hn; right; exact C|].
      rewrite Forall_forall in *. intros x Hx. apply insert_desc_in in Hx. destruct Hx as [->|Hx]; [lia|auto].
Qed.
Lemma sorted_desc_sorted : forall l, NoDup l -> StronglySorted gt (sorted_desc l).
Proof.
  intros l H. induction H as [|i l Hi Hd IH]; cbn [sorted_desc fold_right]; [constructor|].
  apply insert_desc_sorted; [|exact IH]. intros C. apply Hi. apply sorted_desc_in. exact C.
Qed.

Lemma pops_ok : forall js s s',
    StronglySorted gt js ->
    crun (fun i => on_problem (cset (fun o => pop_at (o_when_eq o) i) set_o_when_eq)) js s = (s', Ok tt) ->
    s' = set_problem (set_o_when_eq (others js (o_when_eq (rx_problem s))) (rx_problem s)) s.
Proof.
  intros js. induction js as [|i js IH]; intros s s' Hs H.
  - unfold crun in H. cbn in H. assert (s' = s) by (unfold cret in H; congruence). subst s'.
    assert (others [] (o_when_eq (rx_problem s)) = o_when_eq (rx_problem s)) as ->.
    { rewrite others_from. apply left_all. reflexivity. }
    destruct s as [o ? ? ? ? ? ? ? ? ?]. destruct o. reflexivity.
  - cbn [crun] in H. apply cbind_ok in H. destruct H as [s1 [[] [H1 H]]].
    apply on_problem_ok in H1. destruct H1 as [o1 [H1 E1]]. apply cset_ok in H1. destruct H1 as [v [Hv Eo]].
    inversion Hs as [|? ? Hs' Hf]; subst. apply IH in H; [|exact Hs'].
    apply (pop_others _ _ _ _ js) in Hv; [|revert Hf; apply Forall_impl; intros; lia].
    rewrite H. cbn [rx_problem set_problem]. ofields. rewrite Hv. reflexivity.
Qed.

Lemma relax_equalities_ok : forall F opts idx s s',
    NoDup idx -> relax_time_equalities opts idx s = (s', Ok tt) ->
    let o := rx_problem s in
    exists g nu mu L',
      picks (o_g_eq o) idx g /\ multiplied opts (length g) nu mu s s' /\ with_penalty F nu mu g (o_L o) L' /\
      rx_alg s' = rx_alg s /\ rx_eq s' = rx_eq s ++ g /\
      rx_problem s' = set_o_when_eq (others idx (o_when_eq o)) (set_o_g_eq (others idx (o_g_eq o))
        (set_o_L L' (with_parameters mu o))).
Proof.
  intros F opts idx s s' Hd H o. unfold relax_time_equalities in H.
  apply cbind_ok in H. destruct H as [s0 [g [Hg H]]]. apply of_problem_ok in Hg. destruct Hg as [-> Hg].
  apply index_vec_picks in Hg. modk H.
  apply cbind_ok in H. destruct H as [s2 [[] [H2 H]]].
  apply (include_relax_ok F) in H2. destruct H2 as [nu [mu [L' [M [W [A2 [Q2 P2]]]]]]].
  apply cbind_ok in H. destruct H as [s3 [[] [H3 H]]]. apply on_problem_ok in H3. destruct H3 as [o3 [H3 E3]].
  apply cset_ok in H3. destruct H3 as [v [Hv Eo3]]. apply remove_at_others in Hv.
  apply pops_ok in H; [|apply sorted_desc_sorted; exact Hd].
  rewrite (others_ext _ _ (sorted_desc idx) idx) in H by (intros k _; apply sorted_desc_in).
  assert (P0 : rx_problem o0 = o) by (rewrite E; reflexivity). rewrite P0 in *.
  exists g, nu, mu, L'. split; [exact Hg|]. split; [|split; [exact W|]].
  - destruct M. constructor; try assumption; rewrite H, E3; subst o0; assumption.
  - split; [rewrite H, E3; cbn [rx_alg set_problem]; rewrite A2, E; reflexivity|].
    split; [rewrite H, E3; cbn [rx_eq set_problem]; rewrite Q2, E; reflexivity|].
    rewrite H, E3. cbn [rx_problem set_problem]. rewrite Eo3, Hv, P2. reflexivity.
Qed.

(** ** Bounds of states *)

Lemma dot_app : forall a b c d, length a = length b -> (dot (a ++ c) (b ++ d) == dot a b + dot c d)%Q.
Proof.
  intros a. induction a as [|x a IH]; intros [|y b] c d H; cbn [length] in H; try discriminate; cbn [app dot].
  - ring.
  - rewrite IH by lia. ring.
Qed.
Lemma penalty_app : forall n1 m1 g1 n2 m2 g2, length n1 = length g1 -> length m1 = length g1 ->
    (penalty_value (n1 ++ n2) (m1 ++ m2) (g1 ++ g2) == penalty_value n1 m1 g1 + penalty_value n2 m2 g2)%Q.
Proof.
  intros. unfold penalty_value. rewrite map_app, !dot_app by (rewrite ?map_length; assumption). ring.
Qed.

Lemma Forall2_map_id : forall A (P : A -> A -> Prop) l, (forall a, P a a) -> Forall2 P l l.
Proof. intros A P l H. induction l; constructor; auto. Qed.

Lemma with_penalty_none : forall F L, with_penalty F [] [] [] L L.
Proof. intros F L env. apply Forall2_map_id. intros l. unfold penalty_value. cbn. ring. Qed.

Lemma with_penalty_trans : forall F n1 m1 g1 n2 m2 g2 L1 L2 L3,
    length n1 = length g1 -> length m1 = length g1 ->
    with_penalty F n1 m1 g1 L1 L2 -> with_penalty F n2 m2 g2 L2 L3 ->
    with_penalty F (n1 ++ n2) (m1 ++ m2) (g1 ++ g2) L1 L3.
Proof.
  intros F n1 m1 g1 n2 m2 g2 L1 L2 L3 Hn Hm H1 H2 env. specialize (H1 env). specialize (H2 env).
  rewrite !map_app. revert L3 H2. induction H1 as [|a b l1 l2 Hab Hl IH]; intros L3 H2; inversion H2 as [|? c ? ? Hbc]; subst; constructor; [|auto].
  rewrite penalty_app by (rewrite !map_length; assumption). rewrite Hbc, Hab. ring.
Qed.

Lemma multiplied_trans : forall opts n1 n2 nu1 mu1 nu2 mu2 s1 s2 s3,
    multiplied opts n1 nu1 mu1 s1 s2 -> multiplied opts n2 nu2 mu2 s2 s3 ->
    multiplied opts (n1 + n2) (nu1 ++ nu2) (mu1 ++ mu2) s1 s3.
Proof.
  intros opts n1 n2 nu1 mu1 nu2 mu2 s1 s2 s3 [A1 A2 A3 A4 A5 A6 A7 A8 A9 L1] [B1 B2 B3 B4 B5 B6 B7 B8 B9 L2].
  assert (Hsep : forall v, In v (nu1 ++ mu1) -> In v (nu2 ++ mu2) -> False).
  { intros v Hv1 Hv2. rewrite Forall_forall in A8, B8. specialize (A8 v Hv1). specialize (B8 v Hv2). cbv beta in *. lia. }
  constructor.
  - lia.
  - rewrite B2, A2, app_assoc. reflexivity.
  - rewrite app_length. lia.
  - rewrite B4, A4, app_assoc. reflexivity.
  - rewrite app_length. lia.
  - rewrite B6, A6, repeat_app, app_assoc. reflexivity.
  - assert (Hp : NoDup ((nu1 ++ mu1) ++ (nu2 ++ mu2))).
    { apply NoDup_app_intro; [exact A7|exact B7|]. intros v H1 H2. exact (Hsep v H1 H2). }
    revert Hp. apply Permutation_NoDup. rewrite <- !app_assoc. apply Permutation_app_head.
    rewrite !app_assoc. apply Permutation_app_tail. apply Permutation_app_comm.
  - apply Forall_forall. intros v Hv. rewrite Forall_forall in A8, B8.
    assert (Hv' : In v (nu1 ++ mu1) \/ In v (nu2 ++ mu2)) by (rewrite !in_app_iff in *; tauto).
    destruct Hv' as [Hv'|Hv']; [specialize (A8 v Hv')|specialize (B8 v Hv')]; cbv beta in *; lia.
  - destruct A9, B9. split; congruence.
  - lia.
Qed.


Lemma relax_state_ok : forall F opts i s s',
    relax_state opts i s = (s', Ok tt) ->
    let o := rx_problem s in
    (limited o i = false /\ s' = s) \/
    (limited o i = true /\ o_u_guess o = None /\ exists lo hi x y nu mu L',
      nth_error (o_x_min o) i = Some lo /\ nth_error (o_x_max o) i = Some hi /\ nth_error (m_x (o_model o)) i = Some x /\
      multiplied opts 1 [nu] [mu] s s' /\ with_penalty F [nu] [mu] (copies [y] [x]) (o_L o) L' /\
      (rx_next s <= y)%nat /\ (y < rx_next s')%nat /\ ~ In y [nu; mu] /\
      rx_alg s' = rx_alg s ++ copies [y] [x] /\ rx_eq s' = rx_eq s /\
      rx_problem s' = set_o_x_min (set_nth (o_x_min o) i NInf) (set_o_x_max (set_nth (o_x_max o) i PInf)
        (with_controls [y] [lo] [hi] (set_o_L L' (with_parameters [mu] o))))).
Proof.
  intros F opts i s s' H o. unfold relax_state in H.
  apply cbind_ok in H. destruct H as [s0 [hi [Hhi H]]]. apply of_problem_ok in Hhi. destruct Hhi as [-> Hhi].
  apply cbind_ok in H. destruct H as [s0 [lo [Hlo H]]]. apply of_problem_ok in Hlo. destruct Hlo as [-> Hlo].
  unfold at_index in Hhi, Hlo. fold o in Hhi, Hlo.
  destruct (nth_error (o_x_max o) i) as [h|] eqn:Eh; [|discriminate]. injection Hhi as ->.
  destruct (nth_error (o_x_min o) i) as [l|] eqn:El; [|discriminate]. injection Hlo as ->.
  assert (Lim : limited o i = negb (unlimited lo hi)).
  { unfold limited. rewrite Eh, El. destruct lo, hi; reflexivity. }
  destruct (unlimited lo hi) eqn:Eu.
  { left. split; [exact Lim|]. unfold cret in H. congruence. }
  right. split; [exact Lim|].
  apply cbind_ok in H. destruct H as [s1 [ys [H1 H]]]. unfold new_symbols in H1. injection H1 as E1 Ey. cbn [seq] in Ey.
  apply cbind_ok in H. destruct H as [s2 [nu [H2 H]]].
  unfold create_nu, new_symbols, cmodify, cret, cbind in H2. injection H2 as E2 Enu. cbn [seq] in Enu.
  apply cbind_ok in H. destruct H as [s3 [mu [H3 H]]].
  unfold create_mu in H3. apply cbind_ok in H3. destruct H3 as [s4 [v [Hv Hmu]]].
  unfold new_symbols in Hv. injection Hv as E4 Ev. cbn [seq] in Ev.
  apply cbind_ok in Hmu. destruct Hmu as [s5 [[] [H5 Hmu]]]. apply on_problem_ok in H5. destruct H5 as [o5 [H5 E5]].
  apply on_model_ok in H5. destruct H5 as [m5 [H5 Eo5]]. unfold SysModel.include_parameter in H5. apply cmodify_ok in H5.
  apply cbind_ok in Hmu. destruct Hmu as [s6 [[] [H6 Hmu]]]. apply cmodify_ok in H6. cbv beta in H6.
  unfold cret in Hmu. assert (s3 = s6) by congruence. assert (mu = v) by congruence. clear Hmu. subst s3 mu.
  apply cbind_ok in H. destruct H as [s7 [x [Hx H]]]. apply of_problem_ok in Hx. destruct Hx as [-> Hx].
  cbv zeta in H. rewrite <- Ey, <- Enu, <- Ev in H. cbn [hd] in H.
  set (y := rx_next s) in *. set (n1 := rx_next s1) in *. set (v1 := rx_next s2) in *.
  apply cbind_ok in H. destruct H as [s8 [[] [H8 H]]].
  apply (add_to_L_ok F [n1] [v1] (copies [y] [x])) in H8.
  2:{ intros env. unfold copies, penalty_value. cbn [combine map fst snd eval dot]. unfold binop_eval. field. }
  destruct H8 as [L' [W E8]].
  modk H. apply cbind_ok in H. destruct H as [s10 [[] [H10 H]]]. apply on_problem_ok in H10. destruct H10 as [o10 [H10 E10]].
  apply cbind_ok in H. destruct H as [s11 [[] [H11 H]]]. apply on_problem_ok in H11. destruct H11 as [o11 [H11 E11]].
  apply cbind_ok in H. destruct H as [s12 [[] [H12 H]]]. apply on_problem_ok in H12. destruct H12 as [o12 [H12 E12]].
  apply cmodify_ok in H11, H12, H.
  assert (P6 : rx_problem s6 = with_parameters [v1] o).
  { rewrite H6, E5. cbn [rx_problem set_problem]. rewrite Eo5, H5, <- E4, <- E2, <- E1, <- Ev. reflexivity. }
  assert (Po0 : rx_problem o0 = set_o_L L' (with_parameters [v1] o)) by (rewrite E, E8, P6; reflexivity).
  rewrite Po0 in H10. apply include_control_ok in H10; [|reflexivity|reflexivity].
  destruct H10 as [H10 [Hg _]]. specialize (Hg eq_refl). change (o_u_guess o = None) in Hg.
  split; [exact Hg|].
  assert (N1 : n1 = S y) by (unfold n1; rewrite <- E1; cbn; unfold y; lia).
  assert (N2 : v1 = S (S y)) by (unfold v1; rewrite <- E2; cbn; fold n1; lia).
  assert (Ns : rx_next s' = S (S (S y))).
  { rewrite H, E12, E11, E10, E, E8, H6, E5, <- E4. cbn. fold v1. lia. }
  exists lo, hi, x, y, n1, v1, L'. split; [reflexivity|]. split; [reflexivity|].
  split.
  { rewrite P6 in Hx. change (m_x (o_model (with_parameters [v1] o))) with (m_x (o_model o)) in Hx.
    unfold at_index in Hx. destruct (nth_error (m_x (o_model o)) i); [congruence|discriminate]. }
  split; [|split; [|split; [|split; [|split; [|split; [|split]]]]]].
  - constructor.
    + rewrite H, E12, E11, E10, E, E8, H6, E5, <- E4, <- E2, <- E1. reflexivity.
    + rewrite H, E12, E11, E10, E, E8, H6, E5, <- E4, <- E2. cbn. fold n1. rewrite <- E1. reflexivity.
    + reflexivity.
    + rewrite H, E12, E11, E10, E, E8, H6, E5, <- E4, <- Ev, <- E2, <- E1. reflexivity.
    + reflexivity.
    + rewrite H, E12, E11, E10, E, E8, H6, E5, <- E4, <- E2, <- E1. reflexivity.
    + clear - N1 N2. cbn. constructor; [cbn; lia|]. repeat constructor. intros [].
    + rewrite Ns. assert (Ey' : rx_next s = y) by reflexivity. rewrite Ey'. clear - N1 N2. apply Forall_forall.
      intros w Hw. cbn in Hw. lia.
    + rewrite H, E12, E11, E10, E, E8, H6, E5, <- E4, <- E2, <- E1. split; reflexivity.
    + rewrite Ns. unfold y. lia.
  - rewrite P6 in W. exact W.
  - fold y. lia.
  - lia.
  - cbn. lia.
  - rewrite H, E12, E11, E10, E, E8, H6, E5, <- E4, <- E2, <- E1. reflexivity.
  - rewrite H, E12, E11, E10, E, E8, H6, E5, <- E4, <- E2, <- E1. reflexivity.
  - rewrite H, E12. cbn [rx_problem set_problem set_n_relax]. rewrite H12, E11. cbn [rx_problem set_problem].
    rewrite H11, E10. cbn [rx_problem set_problem]. rewrite H10. unfold guessed.
    rewrite u_guess_same by reflexivity. reflexivity.
Qed.

Lemma set_nth_elsewhere : forall A (l : list A) i j a, i <> j -> nth_error (set_nth l i a) j = nth_error l j.
Proof.
  intros A l. induction l as [|b l IH]; intros [|i] [|j] a H; cbn; try reflexivity; try congruence.
  apply IH. congruence.
Qed.
Lemma set_nth_len : forall A (l : list A) i a, length (set_nth l i a) = length l.
Proof. intros A l. induction l; intros [|i] b; cbn; auto. Qed.

Lemma picks_elsewhere : forall A (l : list A) i a idx v,
    ~ In i idx -> picks (set_nth l i a) idx v -> picks l idx v.
Proof.
  intros A l i a idx v Hn H. unfold picks in *. rewrite <- H. apply map_ext_in. intros j Hj.
  symmetry. apply set_nth_elsewhere. intros ->. contradiction.
Qed.

Lemma relax_states_ok : forall F opts js s s',
    NoDup js -> crun (relax_state opts) js s = (s', Ok tt) ->
    let o := rx_problem s in
    let idx := filter (limited o) js in
    exists lo hi x y nu mu L',
      picks (o_x_min o) idx lo /\ picks (o_x_max o) idx hi /\ picks (m_x (o_model o)) idx x /\
      length y = length idx /\ NoDup (y ++ nu ++ mu) /\
      Forall (fun v => rx_next s <= v < rx_next s')%nat y /\ (rx_next s <= rx_next s')%nat /\
      (idx <> [] -> o_u_guess o = None) /\
      multiplied opts (length idx) nu mu s s' /\ with_penalty F nu mu (copies y x) (o_L o) L' /\
      rx_alg s' = rx_alg s ++ copies y x /\ rx_eq s' = rx_eq s /\
      rx_problem s' = set_o_x_min (open_at NInf idx (o_x_min o)) (set_o_x_max (open_at PInf idx (o_x_max o))
        (with_controls y lo hi (set_o_L L' (with_parameters mu o)))).
Proof.
  intros F opts js. induction js as [|i js IH]; intros s s' Hd H o idx.
  - assert (s' = s) by (clear -H; unfold crun in H; cbn in H; unfold cret in H; congruence). subst s'.
    exists [], [], [], [], [], [], (o_L o). unfold idx. cbn [filter length].
    split; [reflexivity|]. split; [reflexivity|]. split; [reflexivity|]. split; [reflexivity|].
    split; [constructor|]. split; [constructor|]. split; [lia|]. split; [intros C; exfalso; apply C; reflexivity|].
    split; [|split; [apply with_penalty_none|]].
    + constructor; rewrite ?app_nil_r; try reflexivity; try constructor; try lia; reflexivity.
    + split; [cbn; rewrite app_nil_r; reflexivity|]. split; [reflexivity|].
      fold o. clearbody o. clear. unfold open_at. cbn [fold_left].
      apply ocp_ext; try reflexivity; try (symmetry; apply app_nil_r).
      apply model_ext; try reflexivity; symmetry; apply app_nil_r.
  - cbn [crun] in H. apply cbind_ok in H. destruct H as [s1 [[] [H1 H]]].
    inversion Hd as [|? ? Hi Hd']; subst.
    apply (relax_state_ok F) in H1. fold o in H1. cbv zeta in H1.
    apply IH in H; [|exact Hd']. cbv zeta in H.
    destruct H1 as [[Hl ->]|[Hl [Hug H1]]].
    + unfold idx. cbn [filter]. rewrite Hl. exact H.
    + destruct H1 as [lo1 [hi1 [x1 [y1 [nu1 [mu1 [L1 [Elo [Ehi [Ex [M1 [W1 [Y1 [Y2 [Y3 [A1 [Q1 P1]]]]]]]]]]]]]]]]].
      set (o1 := rx_problem s1) in *.
      assert (Ei : filter (limited o1) js = filter (limited o) js).
      { apply filter_ext_in. intros j Hj. assert (i <> j) by (intros ->; contradiction).
        unfold limited. rewrite P1. cbn [o_x_min o_x_max set_o_x_min set_o_x_max].
        rewrite !set_nth_elsewhere by assumption. reflexivity. }
      rewrite Ei in H. set (idx' := filter (limited o) js) in *.
      assert (Hn : ~ In i idx') by (intros C; apply filter_In in C; tauto).
      assert (Eidx : idx = i :: idx') by (unfold idx; cbn [filter]; rewrite Hl; reflexivity).
      destruct H as [lo [hi [x [y [nu [mu [L' [Plo [Phi [Px [Ly [Nd [Ny [Nn [Hg [M [W [A [Qe P]]]]]]]]]]]]]]]]]]].
      assert (X1 : o_x_min o1 = set_nth (o_x_min o) i NInf) by (rewrite P1; reflexivity).
      assert (X2 : o_x_max o1 = set_nth (o_x_max o) i PInf) by (rewrite P1; reflexivity).
      rewrite X1 in Plo. rewrite X2 in Phi. apply picks_elsewhere in Plo, Phi; try exact Hn.
      assert (X3 : m_x (o_model o1) = m_x (o_model o)) by (rewrite P1; reflexivity). rewrite X3 in Px.
      assert (Nn1 : (rx_next s <= rx_next s1)%nat) by lia.
      exists (lo1 :: lo), (hi1 :: hi), (x1 :: x), (y1 :: y), (nu1 :: nu), (mu1 :: mu), L'. rewrite Eidx.
      split; [unfold picks in *; cbn [map]; congruence|]. split; [unfold picks in *; cbn [map]; congruence|].
      split; [unfold picks in *; cbn [map]; congruence|]. split; [cbn [length]; lia|].
      assert (MM : multiplied opts (length (i :: idx')) (nu1 :: nu) (mu1 :: mu) s s')
        by exact (multiplied_trans opts 1 (length idx') [nu1] [mu1] nu mu s s1 s' M1 M).
      pose proof (mp_new _ _ _ _ _ _ M1) as F1. pose proof (mp_new _ _ _ _ _ _ M) as F2.
      rewrite Forall_forall in F1, F2, Ny. cbv beta in F1, F2, Ny.
      assert (F1n : (rx_next s <= nu1 < rx_next s1)%nat) by (apply F1; cbn; auto).
      assert (F1m : (rx_next s <= mu1 < rx_next s1)%nat) by (apply F1; cbn; auto).
      split; [|split; [|split; [lia|split; [intros _; exact Hug|split; [exact MM|split; [|split; [|split]]]]]]].
      * apply (Permutation_NoDup (l := [y1; nu1; mu1] ++ (y ++ nu ++ mu))).
        { cbn [app]. apply perm_skip. transitivity (nu1 :: y ++ nu ++ mu1 :: mu).
          - apply perm_skip. rewrite !app_assoc. apply Permutation_middle.
          - apply (Permutation_middle y (nu ++ mu1 :: mu) nu1). }
        { apply NoDup_app_intro; [|exact Nd|].
          - constructor; [exact Y3|]. exact (mp_distinct _ _ _ _ _ _ M1).
          - intros v Hv Hw. assert ((v < rx_next s1)%nat) by (destruct Hv as [<-|[<-|[<-|[]]]]; lia).
            assert ((rx_next s1 <= v)%nat); [|lia].
            apply in_app_or in Hw. destruct Hw as [Hw|Hw]; [apply Ny in Hw; lia|apply F2 in Hw; lia]. }
      * apply Forall_forall. intros v [<-|Hv]; [lia|]. apply Ny in Hv. lia.
      * assert (L1' : o_L o1 = L1) by (rewrite P1; reflexivity). rewrite L1' in W.
        exact (with_penalty_trans F [nu1] [mu1] (copies [y1] [x1]) nu mu (copies y x) (o_L o) L1 L' eq_refl eq_refl W1 W).
      * rewrite A, A1, <- app_assoc. reflexivity.
      * congruence.
      * rewrite P, X1, X2. unfold open_at. cbn [fold_left]. rewrite P1. clearbody o. clear.
        apply ocp_ext; try reflexivity; try (symmetry; apply (app_assoc _ [_])).
        apply model_ext; try reflexivity; symmetry; apply (app_assoc _ [_]).
Qed.

(** ** The phases of the constructor *)

Record phase (F : nat -> Q -> Q) (opts : al_options) (g ga ge : list expr) (nu mu : list sym) (s s' : relaxing) : Prop := mkPhase
  { ph_new : multiplied opts (length g) nu mu s s';
    ph_L : with_penalty F nu mu g (o_L (rx_problem s)) (o_L (rx_problem s'));
    ph_alg : rx_alg s' = rx_alg s ++ ga; ph_eq : rx_eq s' = rx_eq s ++ ge;
    ph_p : m_p (o_model (rx_problem s')) = m_p (o_model (rx_problem s)) ++ mu;
    ph_kept : m_theta (o_model (rx_problem s')) = m_theta (o_model (rx_problem s)) /\
              m_tau (o_model (rx_problem s')) = m_tau (o_model (rx_problem s)) /\
              m_x (o_model (rx_problem s')) = m_x (o_model (rx_problem s)) /\
              o_p_opt (rx_problem s') = o_p_opt (rx_problem s) /\
              o_theta_opt (rx_problem s') = o_theta_opt (rx_problem s) }.

Lemma multiplied_none : forall opts s, multiplied opts 0 [] [] s s.
Proof. intros opts s. constructor; rewrite ?app_nil_r; try reflexivity; try constructor; try lia; reflexivity. Qed.

Lemma phase_none : forall F opts s, phase F opts [] [] [] [] [] s s.
Proof.
  intros F opts s. constructor; rewrite ?app_nil_r; try reflexivity.
  - apply multiplied_none.
  - apply with_penalty_none.
  - auto.
Qed.

Lemma phase_trans : forall F opts g1 a1 e1 nu1 mu1 g2 a2 e2 nu2 mu2 s1 s2 s3,
    phase F opts g1 a1 e1 nu1 mu1 s1 s2 -> phase F opts g2 a2 e2 nu2 mu2 s2 s3 ->
    phase F opts (g1 ++ g2) (a1 ++ a2) (e1 ++ e2) (nu1 ++ nu2) (mu1 ++ mu2) s1 s3.
Proof.
  intros F opts g1 a1 e1 nu1 mu1 g2 a2 e2 nu2 mu2 s1 s2 s3 [A1 A2 A3 A4 A5 A6] [B1 B2 B3 B4 B5 B6]. constructor.
  - rewrite app_length. eapply multiplied_trans; eassumption.
  - eapply with_penalty_trans; [exact (mp_nu_n _ _ _ _ _ _ A1)|exact (mp_mu_n _ _ _ _ _ _ A1)|exact A2|exact B2].
  - rewrite B3, A3, app_assoc. reflexivity.
  - rewrite B4, A4, app_assoc. reflexivity.
  - rewrite B5, A5, app_assoc. reflexivity.
  - intuition congruence.
Qed.

Lemma algebraic_phase : forall F same opts idx vidx s s',
    (forall a b, same a b = true <-> a = b) ->
    NoDup (m_y (o_model (rx_problem s))) -> NoDup (m_alg (o_model (rx_problem s))) ->
    relax_algebraic_equations same opts idx vidx s = (s', Ok tt) ->
    exists g nu mu, picks (m_alg (o_model (rx_problem s))) idx g /\ phase F opts g g [] nu mu s s' /\
      o_g_eq (rx_problem s') = o_g_eq (rx_problem s).
Proof.
  intros F same opts idx vidx s s' Hs Dy Da H. apply (relax_algebraic_ok F) in H; try assumption. cbv zeta in H.
  destruct H as [g [y [lo [hi [nu [mu [L' [gg [Pg [_ [_ [_ [M [W [A [E P]]]]]]]]]]]]]]]].
  exists g, nu, mu. split; [exact Pg|]. split; [|rewrite P; reflexivity]. constructor.
  - exact M.
  - rewrite P. exact W.
  - exact A.
  - rewrite app_nil_r. exact E.
  - rewrite P. reflexivity.
  - rewrite P. repeat split.
Qed.

Lemma equalities_phase : forall F opts idx s s',
    NoDup idx -> relax_time_equalities opts idx s = (s', Ok tt) ->
    exists g nu mu, picks (o_g_eq (rx_problem s)) idx g /\ phase F opts g [] g nu mu s s'.
Proof.
  intros F opts idx s s' Hd H. apply (relax_equalities_ok F) in H; try assumption. cbv zeta in H.
  destruct H as [g [nu [mu [L' [Pg [M [W [A [E P]]]]]]]]].
  exists g, nu, mu. split; [exact Pg|]. constructor.
  - exact M.
  - rewrite P. exact W.
  - rewrite app_nil_r. exact A.
  - exact E.
  - rewrite P. reflexivity.
  - rewrite P. repeat split.
Qed.

Lemma copies_length : forall y x n, length y = n -> length x = n -> length (copies y x) = n.
Proof.
  intros y. induction y as [|v y IH]; intros [|w x] n Hy Hx; cbn in *; try congruence.
  destruct n as [|n]; [discriminate|]. f_equal. apply IH; congruence.
Qed.

Lemma states_phase : forall F opts s s',
    relax_states_constraints opts s = (s', Ok tt) ->
    let o := rx_problem s in
    let idx := filter (limited o) (seq 0 (length (m_x (o_model o)))) in
    exists x y nu mu, picks (m_x (o_model o)) idx x /\ length y = length idx /\ NoDup (y ++ nu ++ mu) /\
      Forall (fun v => rx_next s <= v < rx_next s')%nat y /\
      phase F opts (copies y x) (copies y x) [] nu mu s s'.
Proof.
  intros F opts s s' H o idx. unfold relax_states_constraints in H.
  apply (relax_states_ok F) in H; [|apply seq_NoDup]. cbv zeta in H. fold o in H. fold idx in H.
  destruct H as [lo [hi [x [y [nu [mu [L' [_ [_ [Px [Ly [Nd [Ny [_ [_ [M [W [A [E P]]]]]]]]]]]]]]]]]]].
  exists x, y, nu, mu. split; [exact Px|]. split; [exact Ly|]. split; [exact Nd|]. split; [exact Ny|].
  assert (Lg : length (copies y x) = length idx).
  { apply copies_length; [exact Ly|exact (picks_length _ _ _ _ Px)]. }
  constructor.
  - rewrite Lg. exact M.
  - rewrite P. exact W.
  - exact A.
  - rewrite app_nil_r. exact E.
  - rewrite P. reflexivity.
  - rewrite P. repeat split.
Qed.

(** ** Multipliers as polynomials *)

Lemma replace_keeps : forall a b o o', ocp_replace_variable a b o = (o', Ok tt) ->
    m_p (o_model o') = m_p (o_model o) /\ m_theta (o_model o') = m_theta (o_model o) /\
    m_tau (o_model o') = m_tau (o_model o) /\ o_p_opt o' = o_p_opt o /\ o_theta_opt o' = o_theta_opt o.
Proof.
  intros a b o o' H. unfold ocp_replace_variable in H. cbv zeta in H. grd H. do 8 modk H.
  apply on_model_ok in H. destruct H as [m' [Hm E']].
  match type of Hm with replace_variable _ _ (o_model ?x) = _ =>
    assert (Em : o_model x = o_model o) by (back; reflexivity); rewrite Em in Hm end.
  rewrite replace_variable_eq in Hm. destruct (length a =? length b)%nat; [|discriminate]. injection Hm as <-.
  back. repeat split; reflexivity.
Qed.

Lemma poly_values : forall F points tau n d first,
    (0 < d)%nat -> length (points d) = d -> distinct (points d) ->
    let (pol, par) := create_polynomial_approximation points tau n d first false in
    length par = (n * d)%nat /\ NoDup par /\ length pol = n /\
    forall env i j t e v, nth_error (points d) j = Some t -> nth_error pol i = Some e ->
      nth_error par (j * n + i) = Some v -> (env tau == t)%Q -> (eval F env e == env v)%Q.
Proof.
  intros F points tau n d first Hd Hl Hdist.
  pose proof (w_C08_parameter_count points tau n d first false) as Hc. cbn [andb] in Hc.
  destruct (create_polynomial_approximation points tau n d first false) as [pol par] eqn:E. cbn [snd] in Hc.
  split; [tauto|]. split; [tauto|].
  assert (Lp : length pol = n).
  { unfold create_polynomial_approximation in E. cbn [andb] in E. assert (Ep := f_equal fst E). cbn [fst] in Ep. rewrite <- Ep.
    destruct (d =? 1)%nat; [rewrite map_length, seq_length; reflexivity|].
    unfold combination. destruct d; [lia|]. rewrite map_length, seq_length. reflexivity. }
  split; [exact Lp|]. intros env i j t e v Hj He Hv Ht.
  assert (Hi : (i < n)%nat) by (rewrite <- Lp; apply nth_error_Some; congruence).
  assert (Hj' : (j < d)%nat) by (rewrite <- Hl; apply nth_error_Some; congruence).
  rewrite <- (nth_error_nth _ _ (EConst 0) He), <- (nth_error_nth _ _ 0%nat Hv).
  destruct (Nat.eq_dec d 1) as [->|Hd1].
  - pose proof (w_C08_degree_one_constant F env points tau n first false i) as H. rewrite E in H.
    assert (j = 0%nat) by lia. subst j. cbn [Nat.mul Nat.add]. apply H. exact Hi.
  - pose proof (w_C08_parameter_layout F env points tau n d first false i j) as H. cbv zeta in H. rewrite E in H.
    unfold interpolation_points in H. apply H; try assumption; [lia|rewrite Hl; exact Hj'|].
    rewrite Ht, (nth_error_nth _ _ 0%Q Hj). reflexivity.
Qed.

Lemma Forall2_first : forall A B (P : A -> B -> Prop) a b l m, Forall2 P (a :: l) (b :: m) -> P a b.
Proof. intros A B P a b l m H. inversion H. assumption. Qed.

Lemma parametrize_ok : forall F points opts g ga ge nu mu o s3 s' c,
    let s0 := start_relaxing o c in
    phase F opts g ga ge nu mu s0 s3 ->
    (0 < al_degree opts)%nat -> length (points (al_degree opts)) = al_degree opts -> distinct (points (al_degree opts)) ->
    (forall e v, In e (o_L o ++ g) -> mentions e v -> ~ In v nu) ->
    parametrize_nu points opts s3 = (s', Ok tt) ->
    relaxes F (points (al_degree opts)) (al_mu_0 opts) g o s' /\ rx_alg s' = ga /\ rx_eq s' = ge.
Proof.
  intros F points opts g ga ge nu mu o s3 s' c s0 Ph Hd Hl Hdist Hf H.
  pose proof (ph_new _ _ _ _ _ _ _ _ _ Ph) as M. unfold parametrize_nu in H.
  assert (Hn : rx_n s3 = length g) by (rewrite (mp_n _ _ _ _ _ _ M); reflexivity).
  rewrite Hn in H. set (tau := m_tau (o_model (rx_problem s3))) in *.
  pose proof (poly_values F points tau (length g) (al_degree opts) (rx_next s3) Hd Hl Hdist) as Hp.
  destruct (create_polynomial_approximation points tau (length g) (al_degree opts) (rx_next s3) false) as [pol par].
  destruct Hp as [Lpar [Npar [Lpol Hval]]].
  apply cbind_ok in H. destruct H as [s4 [u [H4 H]]]. unfold AugModel.new_symbols in H4.
  assert (E4 : s4 = mkRelaxing (rx_problem s3) (rx_n s3) (rx_nu s3) (rx_mu_sym s3) (rx_mu s3) (rx_alg s3) (rx_eq s3)
                       (rx_nu_pol s3) (rx_nu_par s3) (rx_next s3 + length par)) by congruence. clear H4.
  apply cbind_ok in H. destruct H as [s5 [[] [H5 H]]]. apply cmodify_ok in H5.
  apply cbind_ok in H. destruct H as [s6 [[] [H6 H]]]. apply on_problem_ok in H6. destruct H6 as [o6 [H6 E6]].
  apply on_problem_ok in H. destruct H as [o7 [H7 E7]]. apply on_model_ok in H7. destruct H7 as [m7 [H7 Eo7]].
  unfold include_theta in H7. apply cmodify_ok in H7.
  assert (P5 : rx_problem s5 = rx_problem s3) by (rewrite H5, E4; reflexivity). rewrite P5 in H6.
  pose proof (replace_keeps _ _ _ _ H6) as [K1 [K2 [K3 [K4 K5]]]].
  destruct (ph_kept _ _ _ _ _ _ _ _ _ Ph) as [T1 [T2 [_ [T3 T4]]]].
  assert (P6 : rx_problem s6 = o6) by (rewrite E6; reflexivity).
  assert (Enu : rx_nu s3 = nu) by (rewrite (mp_nu _ _ _ _ _ _ M); reflexivity).
  assert (Emu : rx_mu_sym s' = mu).
  { rewrite E7, E6, H5, E4. cbn. rewrite (mp_mu _ _ _ _ _ _ M). reflexivity. }
  assert (Epol : rx_nu_pol s' = pol) by (rewrite E7, E6, H5; reflexivity).
  assert (Epar : rx_nu_par s' = par) by (rewrite E7, E6, H5; reflexivity).
  assert (P' : rx_problem s' = set_o_model (SysModel.set_theta (m_theta (o_model o6) ++ par) (o_model o6)) o6).
  { rewrite E7. cbn [rx_problem set_problem]. rewrite Eo7, H7, P6. reflexivity. }
  split; [constructor|split].
  - rewrite P', Emu. cbn. rewrite K1. exact (ph_p _ _ _ _ _ _ _ _ _ Ph).
  - rewrite Emu. exact (mp_mu_n _ _ _ _ _ _ M).
  - rewrite E7, E6, H5, E4. cbn. rewrite (mp_weights _ _ _ _ _ _ M). reflexivity.
  - rewrite E7, E6, H5, E4. exact Hn.
  - rewrite P', Epar. cbn. rewrite K2, T1. reflexivity.
  - rewrite Epar, Hl. exact Lpar.
  - rewrite Epar. exact Npar.
  - rewrite P'. cbn. rewrite K3. exact T2.
  - rewrite P'. cbn. rewrite K4, K5. split; [exact T3|exact T4].
  - rewrite Epol. exact Lpol.
  - rewrite Epol, Epar. intros env i j t e v Hj He Hv Ht. apply (Hval env i j t e v Hj He Hv).
    unfold tau. rewrite T2. exact Ht.
  - intros env. rewrite Epol, Emu, P'. change (o_L (set_o_model _ o6)) with (o_L o6).
    destruct (ocp_replace_evaluates F env _ _ _ _ H6) as [Len [HL _]].
    unfold problem_expressions in HL. apply Forall2_first in HL.
    rewrite Enu in HL, Len. set (env' := assign env nu (map (eval F env) pol)) in *.
    pose proof (ph_L _ _ _ _ _ _ _ _ _ Ph env') as W.
    assert (Hsame : forall e, In e (o_L o ++ g) -> eval F env' e = eval F env e).
    { intros e He. apply eval_ext. intros v Hv. unfold env'. apply SysProofs.assign_notin. apply (Hf e v He Hv). }
    assert (Eg : map (eval F env') g = map (eval F env) g).
    { apply map_ext_in. intros e He. apply Hsame, in_or_app. right. exact He. }
    assert (Nd := mp_distinct _ _ _ _ _ _ M).
    assert (En : map env' nu = map (eval F env) pol).
    { apply assign_map; [exact (NoDup_app_l _ _ _ Nd)|rewrite map_length; exact Len]. }
    assert (Em : map env' mu = map env mu).
    { apply map_ext_in. intros v Hv. apply SysProofs.assign_notin. intros C. exact (NoDup_app_disjoint _ _ _ v Nd C Hv). }
    rewrite Eg, En, Em in W. change (o_L (rx_problem s0)) with (o_L o) in W.
    assert (Hin : forall l, In l (o_L o) -> eval F env' l = eval F env l) by (intros l Hl'; apply Hsame, in_or_app; auto).
    clear - W HL Hin. revert HL Hin. generalize (o_L o6). induction W as [|a b l1 l2 Hab Hl IH]; intros L6 HL Hin; inversion HL; subst; constructor.
    + match goal with H : evaluates_as _ _ _ b _ |- _ => unfold evaluates_as in H; rewrite H end.
      rewrite Hab, (Hin a) by (left; reflexivity). reflexivity.
    + apply IH; [assumption|]. intros l Hl'. apply Hin. right. exact Hl'.
  - rewrite E7, E6, H5, E4. cbn. rewrite (ph_alg _ _ _ _ _ _ _ _ _ Ph). reflexivity.
  - rewrite E7, E6, H5, E4. cbn. rewrite (ph_eq _ _ _ _ _ _ _ _ _ Ph). reflexivity.
Qed.

Lemma copies_mention : forall y x e v, In e (copies y x) -> mentions e v -> In v y \/ In v x.
Proof.
  intros y x e v He Hv. unfold copies in He. apply in_map_iff in He. destruct He as [[a b] [<- Hab]].
  cbn in Hv. pose proof (in_combine_l _ _ _ _ Hab). pose proof (in_combine_r _ _ _ _ Hab).
  destruct Hv as [<-|[<-|[]]]; auto.
Qed.
Lemma picks_incl : forall A (l : list A) idx v a, picks l idx v -> In a v -> In a l.
Proof.
  intros A l idx v a H Ha. apply (picks_In _ _ _ _ _ H) in Ha. destruct Ha as [i [_ E]]. eapply nth_error_In; exact E.
Qed.


Lemma relax_ok : forall F same points opts rq o c s',
    (forall a b, same a b = true <-> a = b) -> NoDup (m_y (o_model o)) -> NoDup (m_alg (o_model o)) ->
    NoDup (rq_equalities rq) -> older o c ->
    al_skip_initialize opts = false -> al_skip_parametrize opts = false ->
    (0 < al_degree opts)%nat -> length (points (al_degree opts)) = al_degree opts -> distinct (points (al_degree opts)) ->
    relax same points opts rq (start_relaxing o c) = (s', Ok tt) ->
    exists ga ge x y,
      picks (m_alg (o_model o)) (wanted o rq) ga /\ picks (o_g_eq o) (rq_equalities rq) ge /\
      picks (m_x (o_model o)) (if rq_states rq then filter (limited o) (seq 0 (length (m_x (o_model o)))) else []) x /\
      length y = length x /\ NoDup y /\ Forall (fun v => c <= v)%nat y /\
      relaxes F (points (al_degree opts)) (al_mu_0 opts) (ga ++ ge ++ copies y x) o s' /\
      rx_alg s' = ga ++ copies y x /\ rx_eq s' = ge.
Proof.
  intros F same points opts rq o c s' Hs Dy Da De [Old1 Old2] S1 S2 Hd Hl Hdist H.
  unfold relax in H. cbv zeta in H. change (rx_problem (start_relaxing o c)) with o in H.
  fold (wanted o rq) in H. set (vidx := match rq_algebraic_var rq with Some l => l | None => wanted o rq end) in H.
  set (s0 := start_relaxing o c) in *.
  apply cbind_ok in H. destruct H as [s [a [Ha H]]]. apply of_problem_ok in Ha. destruct Ha as [-> Ha].
  apply index_vec_picks in Ha. change (rx_problem s0) with o in Ha.
  apply cbind_ok in H. destruct H as [s1 [[] [H1 H]]].
  assert (Ph1 : exists nu mu, phase F opts a a [] nu mu s0 s1 /\ o_g_eq (rx_problem s1) = o_g_eq o /\
                  (forall i, limited (rx_problem s1) i = limited o i)).
  { destruct a as [|e a].
    - assert (s1 = s0) by (unfold cret in H1; congruence). subst s1. exists [], []. split; [apply phase_none|]. split; reflexivity.
    - pose proof (relax_algebraic_ok F same opts _ _ s0 s1 Hs Dy Da H1) as R. cbv zeta in R.
      destruct R as [g [y [lo [hi [nu [mu [L' [gg [Pg [_ [_ [_ [_ [_ [_ [_ P]]]]]]]]]]]]]]]].
      destruct (algebraic_phase F same opts _ _ s0 s1 Hs Dy Da H1) as [g' [nu' [mu' [Pg' [Ph Hq]]]]].
      change (rx_problem s0) with o in Pg'. pose proof (picks_fun _ _ _ _ _ Pg' Ha) as ->. exists nu', mu'. split; [exact Ph|]. split; [exact Hq|].
      intros i. rewrite P. reflexivity. }
  destruct Ph1 as [nu1 [mu1 [Ph1 [Hq1 Hlim1]]]].
  apply cbind_ok in H. destruct H as [s [b [Hb H]]]. apply of_problem_ok in Hb. destruct Hb as [-> Hb].
  apply index_vec_picks in Hb.
  apply cbind_ok in H. destruct H as [s2 [[] [H2 H]]].
  assert (Ph2 : exists ge nu mu, picks (o_g_eq o) (rq_equalities rq) ge /\ phase F opts ge [] ge nu mu s1 s2 /\
                  (forall i, limited (rx_problem s2) i = limited (rx_problem s1) i)).
  { destruct b as [|e b].
    - assert (s2 = s1) by (unfold cret in H2; congruence). subst s2. exists [], [], [].
      apply picks_length in Hb. destruct (rq_equalities rq); [|discriminate].
      split; [reflexivity|]. split; [apply phase_none|reflexivity].
    - pose proof (relax_equalities_ok F opts _ _ _ De H2) as R. cbv zeta in R.
      destruct R as [g [nu [mu [L' [_ [_ [_ [_ [_ P]]]]]]]]].
      destruct (equalities_phase F opts _ _ _ De H2) as [g' [nu' [mu' [Pg Ph]]]]. rewrite Hq1 in Pg.
      exists g', nu', mu'. split; [exact Pg|]. split; [exact Ph|]. intros i. rewrite P. reflexivity. }
  destruct Ph2 as [ge [nu2 [mu2 [Pge [Ph2 Hlim2]]]]].
  apply cbind_ok in H. destruct H as [s3 [[] [H3 H]]].
  pose proof (phase_trans _ _ _ _ _ _ _ _ _ _ _ _ _ _ _ Ph1 Ph2) as Ph12. rewrite app_nil_r in Ph12. cbn [app] in Ph12.
  assert (X2 : m_x (o_model (rx_problem s2)) = m_x (o_model o)) by exact (proj1 (proj2 (proj2 (ph_kept _ _ _ _ _ _ _ _ _ Ph12)))).
  assert (Ph3 : exists x y nu mu,
    picks (m_x (o_model o)) (if rq_states rq then filter (limited o) (seq 0 (length (m_x (o_model o)))) else []) x /\
    length y = length x /\ NoDup (y ++ nu ++ mu) /\ Forall (fun v => rx_next s2 <= v)%nat y /\
    phase F opts (copies y x) (copies y x) [] nu mu s2 s3).
  { destruct (rq_states rq).
    - apply (states_phase F) in H3. cbv zeta in H3. rewrite X2 in H3.
      assert (Ef : filter (limited (rx_problem s2)) (seq 0 (length (m_x (o_model o)))) = filter (limited o) (seq 0 (length (m_x (o_model o))))).
      { apply filter_ext. intros i. rewrite Hlim2, Hlim1. reflexivity. }
      rewrite Ef in H3. destruct H3 as [x [y [nu [mu [Px [Ly [Nd [Ny Ph]]]]]]]].
      exists x, y, nu, mu. split; [exact Px|]. split; [rewrite Ly; symmetry; exact (picks_length _ _ _ _ Px)|].
      split; [exact Nd|]. split; [|exact Ph]. revert Ny. apply Forall_impl. intros; lia.
    - assert (s3 = s2) by (unfold cret in H3; congruence). subst s3. exists [], [], [], [].
      split; [reflexivity|]. split; [reflexivity|]. split; [constructor|]. split; [constructor|apply phase_none]. }
  destruct Ph3 as [x [y [nu3 [mu3 [Px [Ly [Nd [Ny Ph3]]]]]]]].
  pose proof (phase_trans _ _ _ _ _ _ _ _ _ _ _ _ _ _ _ Ph12 Ph3) as Ph.
  rewrite app_nil_r, <- app_assoc in Ph. rewrite S1, S2 in H. cbn [orb] in H.
  pose proof (mp_next _ _ _ _ _ _ (ph_new _ _ _ _ _ _ _ _ _ Ph12)) as Nx. change (rx_next s0) with c in Nx.
  exists a, ge, x, y. split; [exact Ha|]. split; [exact Pge|]. split; [exact Px|]. split; [exact Ly|].
  split; [exact (NoDup_app_l _ _ _ Nd)|]. split; [revert Ny; apply Forall_impl; intros; lia|].
  eapply (parametrize_ok F points opts (a ++ ge ++ copies y x)); [exact Ph|exact Hd|exact Hl|exact Hdist| |exact H].
  intros e v He Hv C.
  assert (New : forall w, In w ((nu1 ++ nu2) ++ nu3) -> (c <= w)%nat).
  { intros w Hw. pose proof (mp_new _ _ _ _ _ _ (ph_new _ _ _ _ _ _ _ _ _ Ph)) as N. rewrite Forall_forall in N.
    specialize (N w (in_or_app _ _ _ (or_introl Hw))). cbv beta in N. change (rx_next s0) with c in N. lia. }
  specialize (New v C). rewrite !in_app_iff in He.
  assert (Hold : forall e', In e' (o_L o ++ m_alg (o_model o) ++ o_g_eq o) -> mentions e' v -> False).
  { intros e' He' Hv'. specialize (Old1 e' v He' Hv'). lia. }
  destruct He as [He|[He|[He|He]]].
  - apply (Hold e); [rewrite !in_app_iff; tauto|exact Hv].
  - apply (Hold e); [rewrite !in_app_iff; right; left; exact (picks_incl _ _ _ _ _ Ha He)|exact Hv].
  - apply (Hold e); [rewrite !in_app_iff; right; right; exact (picks_incl _ _ _ _ _ Pge He)|exact Hv].
  - destruct (copies_mention _ _ _ _ He Hv) as [Hy|Hx].
    + apply in_app_or in C. destruct C as [C|C].
      * pose proof (mp_new _ _ _ _ _ _ (ph_new _ _ _ _ _ _ _ _ _ Ph12)) as N. rewrite Forall_forall in N.
        specialize (N v (in_or_app _ _ _ (or_introl C))). rewrite Forall_forall in Ny. specialize (Ny v Hy). cbv beta in *. lia.
      * apply (NoDup_app_disjoint _ _ _ v Nd Hy). apply in_or_app. left. exact C.
    + specialize (Old2 v (picks_incl _ _ _ _ _ Px Hx)). lia.
Qed.

(** ** Ready to be solved *)

(** The solver keeps the parameters of the problem it is given. *)
Lemma relaxes_carries : forall F pts w o s k vars,
    relaxes F pts w (rx_alg s ++ rx_eq s) o s ->
    o_p_opt o = [] -> o_theta_opt o = [] -> NoDup vars ->
    m_p (k_model k) = m_p (o_model (rx_problem s)) -> m_theta (k_model k) = m_theta (o_model (rx_problem s)) ->
    m_tau (k_model k) = m_tau (o_model (rx_problem s)) ->
    o_p_opt (k_problem k) = o_p_opt (rx_problem s) -> o_theta_opt (k_problem k) = o_theta_opt (rx_problem s) ->
    carries F pts (mkAugmented k vars (rx_alg s) (rx_eq s) (rx_mu_sym s) (rx_nu_pol s)) (m_p (o_model o)) (m_theta (o_model o)).
Proof.
  intros F pts w o s k vars [R1 R2 R3 R4 R5 R6 R7 R8 R9 R10 R11 R12] Hp Ht Nd Kp Kt Ktau Kpo Kto.
  constructor; cbn [ag_method ag_variables ag_alg ag_eq ag_mu_sym ag_nu_pol].
  - exact Nd.
  - rewrite Kpo, Kto. destruct R9. split; congruence.
  - rewrite Kp. exact R1.
  - exact R2.
  - exists (rx_nu_par s). unfold relaxed_count, relaxed_equations. cbn [ag_alg ag_eq].
    split; [rewrite Kt; exact R5|]. split; [exact R6|]. split; [exact R10|].
    intros env i j tau e v Hj He Hv Htau. apply (R11 env i j tau e v Hj He Hv). rewrite Ktau, R8 in Htau. exact Htau.
Qed.

Lemma include_state_keeps_par : forall var f x0 m m', include_state var f x0 m = (m', Ok tt) ->
    m_p m' = m_p m /\ m_theta m' = m_theta m /\ m_tau m' = m_tau m.
Proof.
  assert (Loop : forall var m m', include_state_loop var m = (m', Ok tt) ->
    m_p m' = m_p m /\ m_theta m' = m_theta m /\ m_tau m' = m_tau m).
  { intros var. induction var as [|v var IH]; intros m m' H; cbn [include_state_loop] in H.
    - unfold cret in H. assert (m' = m) by congruence. subst. auto.
    - grd H. modk H. apply IH in H. rewrite E in H. exact H. }
  intros var f x0 m m' H. unfold include_state in H. modk H. modk H.
  apply cbind_ok in H. destruct H as [m1 [[] [H1 H]]]. apply Loop in H1. rewrite E0, E in H1. cbn in H1.
  destruct f as [f|]; [|unfold cret in H; assert (m' = m1) by congruence; subst; exact H1].
  unfold include_equations in H. apply cbind_ok in H. destruct H as [m2 [[] [H2 H]]].
  unfold include_equations_alg in H2. apply cmodify_ok in H2. grd H.
  apply cbind_ok in H. destruct H as [m3 [[] [H3 H]]]. assert (m3 = m2) by (unfold cret in H3; congruence). subst m3.
  unfold include_equation_from_kwargs in H. grd H. grd H. apply cmodify_ok in H. rewrite H, H2. exact H1.
Qed.

Lemma prepare_keeps : forall points d x_c x_c0 first o o',
    direct_prepare points d x_c x_c0 first o = (o', Ok tt) ->
    m_p (o_model o') = m_p (o_model o) /\ m_theta (o_model o') = m_theta (o_model o) /\
    m_tau (o_model o') = m_tau (o_model o) /\ o_p_opt o' = o_p_opt o /\ o_theta_opt o' = o_theta_opt o.
Proof.
  intros points d x_c x_c0 first o o' H. unfold direct_prepare in H. grd H.
  apply cbind_ok in H. destruct H as [o1 [[] [H1 H]]].
  assert (A : m_p (o_model o1) = m_p (o_model o) /\ m_theta (o_model o1) = m_theta (o_model o) /\
    m_tau (o_model o1) = m_tau (o_model o) /\ o_p_opt o1 = o_p_opt o /\ o_theta_opt o1 = o_theta_opt o).
  { unfold add_cost_state in H1. apply cbind_ok in H1. destruct H1 as [o2 [[] [H2 H1]]].
    apply cset_ok in H1. destruct H1 as [v [_ E1]]. unfold create_cost_state in H2.
    apply cbind_ok in H2. destruct H2 as [o3 [[] [H3 H2]]]. apply cmodify_ok in H2.
    assert (K : m_p (o_model o3) = m_p (o_model o) /\ m_theta (o_model o3) = m_theta (o_model o) /\
      m_tau (o_model o3) = m_tau (o_model o) /\ o_p_opt o3 = o_p_opt o /\ o_theta_opt o3 = o_theta_opt o).
    { unfold ocp_include_state in H3. clear - H3. cbv zeta in H3. grd H3. clear G.
      destruct (state_bound _ _) as [lo|]; [|discriminate]. destruct (state_bound _ _) as [hi|]; [|discriminate].
      grd H3. grd H3. grd H3. apply cbind_ok in H3. destruct H3 as [o4 [[] [H4 H3]]].
      apply on_model_ok in H4. destruct H4 as [m4 [H4 E4]]. apply include_state_keeps_par in H4.
      modk H3. setk H3. setk H3. apply cset_ok in H3. destruct H3 as [w [_ E2]].
      rewrite E2, E1, E0, E, E4. exact (conj (proj1 H4) (conj (proj1 (proj2 H4)) (conj (proj2 (proj2 H4)) (conj eq_refl eq_refl)))). }
    rewrite E1, H2. exact K. }
  unfold parametrize_controls in H.
  destruct (create_variable_polynomial_approximation _ _ _ _ _ _) as [[pol par]|]; [|discriminate].
  apply replace_keeps in H. cbn in H. intuition congruence.
Qed.

(** Proofs about the transcription by collocation: from the constraints of the elements
    to the whole problem. *)
From Coq Require Import String Sorted SetoidList Permutation Lqa.
From Verif Require Import Base BaseProofs UtilModel UtilProofs ExprModel ExprProofs NlpModel NlpSpec NlpProofs SysModel
  SysSpec SysProofs SimModel OcpModel OcpSpec OcpMoreProofs LagModel LagSpec LagProofs DiscModel DiscSpec DiscProofs
  ColSpec ColPolyProofs ColEvalProofs ColProofs ColElementProofs ColIncludeProofs.
Local Open Scope list_scope.
Local Open Scope nat_scope.

Lemma Forall2_maps : forall (A B : Type) (f : A -> Q) (g : B -> Q) l l', length l = length l' ->
    (Forall2 Qeq (map f l) (map g l') <->
     forall i a b, nth_error l i = Some a -> nth_error l' i = Some b -> (f a == g b)%Q).
Proof.
  intros A B f g l l' L. split.
  - intros H i a b Ha Hb. assert (Ha' : nth_error (map f l) i = Some (f a)) by (rewrite nth_error_map, Ha; reflexivity).
    destruct (Forall2_nth _ _ _ _ _ _ _ H Ha') as [c [Hc E]]. rewrite nth_error_map, Hb in Hc. injection Hc as <-. exact E.
  - intros H. apply Forall2_nth_intro; [rewrite !map_length; exact L|]. intros i a b Ha Hb. rewrite nth_error_map in Ha, Hb.
    destruct (nth_error l i) as [x|] eqn:E1; [|discriminate]. destruct (nth_error l' i) as [y|] eqn:E2; [|discriminate].
    injection Ha as <-. injection Hb as <-. apply (H i x y E1 E2).
Qed.
Lemma nth_seq : forall n i, i < n -> nth_error (seq 0 n) i = Some i.
Proof. intros n i H. rewrite (nth_error_nth' _ 0) by (rewrite seq_length; exact H). rewrite seq_nth by exact H. reflexivity. Qed.
Lemma nth_seq_inv : forall n i j, nth_error (seq 0 n) i = Some j -> i < n /\ j = i.
Proof.
  intros n i j H. assert (i < n) by (rewrite <- (seq_length n 0); apply nth_error_Some; congruence).
  rewrite (nth_seq n i) in H by assumption. injection H as <-. split; [assumption | reflexivity].
Qed.

Section Assembly.
  Variables (F : nat -> Q -> Q) (points : nat -> list Q) (dfun : nat -> expr -> expr) (k : method).
  Variables (env : sym -> Q) (s : par_syms) (r : traj sym) (q : trajectory).
  Hypothesis HF : respects F.
  Hypothesis T : transcribable k.
  Hypothesis Hpts : collocation_points (points (k_degree k)) (k_degree k).
  Hypothesis Sh : collocation_shape k r.
  Hypothesis D : describes k (points (k_degree k)) env s r q.
  Hypothesis Hp : length (ps_p s) = n_p k.
  Hypothesis Hth : rows (k_elements k) (n_theta k) (ps_theta s).
  Hypothesis Hx0 : length (ps_x0 s) = n_x k.
  Hypothesis HK : k_elements k <> 0.
  Let m : model := k_model k.
  Let o : ocp := k_problem k.
  Let pts : list Q := points (k_degree k).
  Let K : nat := k_elements k.
  Let vals := vals F env.
  Let imposes := imposes F env.

  Definition the_elements : list element :=
    elements k (step_size k) (map (fun i => step_size k * q_of_nat i)%Q (seq 0 (K + 1))) r
      (with_p_opt k (ps_p s) r) (with_theta_opt k (ps_theta s) r).

  Lemma p_vals : vals (with_p_opt k (ps_p s) r) (q_p q).
  Proof.
    destruct (tr_own _ T) as [[O1 _] [N1 _]]. unfold with_p_opt.
    apply (chosen_vals F env (m_p m) (o_p_opt o) _ _ _ _ (p_NoDup k T) N1).
    - apply (opt_indices o O1), (p_NoDup k T).
    - exact Hp.
    - apply Sh.
    - apply (de_p _ _ _ _ _ _ D).
  Qed.
  Lemma theta_vals : forall i, i < K -> vals (nth i (with_theta_opt k (ps_theta s) r) []) (q_theta q i).
  Proof.
    intros i Hi. destruct (tr_own _ T) as [[_ O1] [_ N1]].
    destruct (theta_row k s r Sh Hp Hth Hx0 i Hi) as [g [d [Eg [Ed [Lg Ld]]]]].
    unfold with_theta_opt. erewrite nth_error_nth; [|rewrite nth_error_map, (combine_nth_error _ _ _ _ _ _ _ Eg Ed); reflexivity].
    cbn [fst snd]. apply (chosen_vals F env (m_theta m) (o_theta_opt o) _ _ _ _ (theta_NoDup k T) N1).
    - apply (opt_theta_indices o O1), (theta_NoDup k T).
    - exact Lg.
    - exact Ld.
    - apply (de_theta _ _ _ _ _ _ D i g d Eg Ed).
  Qed.

  Lemma elements_fit : forall i e, nth_error the_elements i = Some e -> i < K /\ fits F k env r q i e.
  Proof.
    intros i e H. unfold the_elements, elements in H. rewrite nth_error_map in H.
    destruct (nth_error (seq 0 (k_elements k)) i) as [j|] eqn:E; [|discriminate].
    apply nth_seq_inv in E. destruct E as [Hi ->]. injection H as <-. split; [exact Hi|].
    assert (B : forall a, a < K + 1 -> nth a (map (fun i => step_size k * q_of_nat i)%Q (seq 0 (K + 1))) 0%Q = (step_size k * q_of_nat a)%Q).
    { intros a Ha. apply nth_error_nth. rewrite nth_error_map, (nth_seq _ _ Ha). reflexivity. }
    unfold K in *.
    destruct Sh as [[Lx _] [[Ly _] [[Lu _] _]]].
    constructor; cbn [e_a e_b e_dt e_x e_y e_u e_p e_theta].
    - rewrite B by lia. reflexivity.
    - rewrite B by lia. rewrite Nat.add_1_r. rewrite q_of_nat_S. unfold q_of_nat. ring.
    - reflexivity.
    - apply nth_error_nth'. lia.
    - apply nth_error_nth'. lia.
    - apply nth_error_nth'. lia.
    - apply p_vals.
    - apply theta_vals, Hi.
  Qed.
  Lemma elements_length : length the_elements = K.
  Proof. unfold the_elements, elements. rewrite map_length, seq_length. reflexivity. Qed.

  (** ** The conditions of one element *)

  Definition joined_at (i : nat) : Prop :=
    match i with
    | 0 => True
    | S i' => forall c, c < n_x k -> (poly (q_x q i' c) 1 == poly (q_x q i c) 0)%Q
    end.
  Definition element_ok (i : nat) : Prop :=
    joined_at i /\
    (forall tau c x e, In tau pts -> nth_error (m_ode m) c = Some (x, Some e) ->
       (poly (derivative (q_x q i c)) tau == step_size k * eval F (at_point k q i tau) e)%Q) /\
    (forall tau, In tau pts -> m_y m <> [] -> vanishes F k q (m_alg m) i tau) /\
    (forall j lo hi, nth_error (o_du_min o) j = Some lo -> nth_error (o_du_max o) j = Some hi ->
       ext_le lo (Fin (increment q i j)) /\ ext_le (Fin (increment q i j)) hi) /\
    (forall j g w tau, nth_error (o_g_ineq o) j = Some g -> nth_error (o_when_ineq o) j = Some w ->
       In tau (imposed pts w) -> (eval F (at_point k q i tau) g <= 0)%Q) /\
    (forall j g w tau, nth_error (o_g_eq o) j = Some g -> nth_error (o_when_eq o) j = Some w ->
       In tau (imposed pts w) -> (eval F (at_point k q i tau) g == 0)%Q).
  Definition times_count (gs : list expr) (ws : list string) : nat :=
    list_sum (map (fun gw : expr * string => length (imposed pts (snd gw))) (combine gs ws)).
  Definition element_rows (i : nat) : nat :=
    (match i with 0 => 0 | S _ => n_x k end) +
    (k_degree k * n_x k + (k_degree k * length (d_alg (get_dae_system m)) +
      (bounded_increments o + (times_count (o_g_ineq o) (o_when_ineq o) + times_count (o_g_eq o) (o_when_eq o))))).

  Lemma collocated_elements : collocated F k q pts <->
      vanishes F k q (o_h_initial o) 0 0%Q /\ (forall i, In i (seq 0 K) -> element_ok i) /\
      vanishes F k q (o_h_final o) (K - 1) 1%Q /\ vanishes F k q (o_h o) (K - 1) 1%Q.
  Proof.
    split.
    - intros [A1 A2 A3 A4 A5 A6 A7 A8 A9]. split; [exact A1|]. split; [|split; [exact A8 | exact A9]].
      intros i Hi. apply in_seq in Hi. destruct Hi as [_ Hi]. cbn [Nat.add] in Hi. unfold element_ok.
      split; [destruct i as [|i]; [exact I | intros c Hc; apply A2; assumption]|].
      split; [intros tau c x e Ht He; apply (A3 i tau c x e Hi Ht He)|].
      split; [intros tau Ht Hy; apply (A4 i tau Hi Ht Hy)|].
      split; [intros j lo hi; apply (A5 i j lo hi Hi)|].
      split; [intros j g w tau; apply (A6 i j g w tau Hi) | intros j g w tau; apply (A7 i j g w tau Hi)].
    - intros [A1 [A [A8 A9]]].
      assert (E : forall i, i < K -> element_ok i) by (intros i Hi; apply A, in_seq; lia).
      constructor; try assumption.
      + intros el c Hel Hc. destruct (E (S el) Hel) as [H _]. exact (H c Hc).
      + intros el tau c x e Hel Ht He. destruct (E el Hel) as [_ [H _]]. exact (H tau c x e Ht He).
      + intros el tau Hel Ht Hy. destruct (E el Hel) as [_ [_ [H _]]]. exact (H tau Ht Hy).
      + intros el j lo hi Hel. destruct (E el Hel) as [_ [_ [_ [H _]]]]. exact (H j lo hi).
      + intros el j g w tau Hel. destruct (E el Hel) as [_ [_ [_ [_ [H _]]]]]. exact (H j g w tau).
      + intros el j g w tau Hel. destruct (E el Hel) as [_ [_ [_ [_ [_ H]]]]]. exact (H j g w tau).
  Qed.

  Lemma dynamics_iff : forall i e, fits F k env r q i e ->
      (forall j, In j (seq 1 (k_degree k)) -> dynamics_at F points k q i e j) <->
      (forall tau c x e, In tau pts -> nth_error (m_ode m) c = Some (x, Some e) ->
         (poly (derivative (q_x q i c)) tau == step_size k * eval F (at_point k q i tau) e)%Q).
  Proof.
    intros i e Hf. assert (L : forall tau, length (seq 0 (n_x k)) = length (map (eval F (at_point k q i tau)) (ode m))).
    { intros tau. rewrite seq_length, map_length. symmetry. apply (ode_length k T). }
    unfold dynamics_at. fold pts m. split.
    - intros H tau c x f Ht Hc. apply In_nth_error in Ht. destruct Ht as [j Hj].
      assert (Hjs : In (S j) (seq 1 (k_degree k))).
      { apply in_seq. assert (j < length pts) by (apply nth_error_Some; congruence).
        destruct Hpts as [Lp _]. fold pts in Lp. lia. }
      specialize (H (S j) Hjs tau Hj). rewrite (Forall2_maps _ _ _ _ _ _ (L tau)) in H.
      assert (Hode : nth_error (ode m) c = Some f) by (apply (ode_nth k T); exists x; exact Hc).
      assert (Hcn : c < n_x k) by (rewrite <- (ode_length k T); apply nth_error_Some; fold m; congruence).
      rewrite (H c c (eval F (at_point k q i tau) f)); [rewrite (ft_dt _ _ _ _ _ _ _ Hf); reflexivity | apply nth_seq, Hcn|].
      rewrite nth_error_map, Hode. reflexivity.
    - intros H j Hj tau Ht. rewrite (Forall2_maps _ _ _ _ _ _ (L tau)). intros c c' v Hc Hv.
      apply nth_seq_inv in Hc. destruct Hc as [Hc ->]. rewrite nth_error_map in Hv.
      destruct (nth_error (ode m) c) as [f|] eqn:Ef; [|discriminate]. injection Hv as <-.
      apply (ode_nth k T) in Ef. destruct Ef as [x Ef]. rewrite (ft_dt _ _ _ _ _ _ _ Hf). apply (H tau c x f); [|exact Ef].
      apply in_seq in Hj. destruct j as [|j]; [lia|]. apply (nth_error_In pts j Ht).
  Qed.

  Lemma algebraic_iff : forall i,
      (forall j, In j (seq 0 (k_degree k)) -> algebraic_at F points k q i j) <->
      (forall tau, In tau pts -> m_y m <> [] -> vanishes F k q (m_alg m) i tau).
  Proof.
    intros i. unfold algebraic_at, vanishes, get_dae_system. cbn [d_alg]. fold pts m. split.
    - intros H tau Ht Hy e He. apply In_nth_error in Ht. destruct Ht as [j Hj].
      assert (Hjs : In j (seq 0 (k_degree k))).
      { apply in_seq. assert (j < length pts) by (apply nth_error_Some; congruence). destruct Hpts as [Lp _]. fold pts in Lp. lia. }
      specialize (H j Hjs tau Hj). destruct (m_y m) as [|y l]; [contradiction|]. cbn [length Nat.ltb Nat.leb] in H.
      rewrite Forall_map, Forall_forall in H. apply H, He.
    - intros H j _ tau Ht. destruct (m_y m) as [|y l]; [constructor|]. cbn [length Nat.ltb Nat.leb].
      rewrite Forall_map, Forall_forall. intros e He. apply (H tau); [apply (nth_error_In _ _ Ht) | discriminate | exact He].
  Qed.

  Section Results.
    Variables (zs : list results) (f_der : func).
    Hypothesis Hder : derivative_function points dfun k = Ok f_der.
    Hypothesis Hzs : res_map (element_results points k) the_elements = Ok zs.

    Lemma result_at : forall i z, nth_error zs i = Some z -> i < K /\
        exists e, nth_error the_elements i = Some e /\ fits F k env r q i e /\ outcome F points k env q i z.
    Proof.
      intros i z Hz. pose proof (res_map_ok _ _ _ _ _ Hzs) as H.
      destruct (Forall2_nth' _ _ _ _ _ _ _ H Hz) as [e [He Hr]].
      destruct (elements_fit i e He) as [Hi Hf]. split; [exact Hi|]. exists e. split; [exact He|]. split; [exact Hf|].
      exact (element_results_ok F points k env s r q HF T Hpts Sh D Hp Hth Hx0 HK i e Hi Hf z Hr).
    Qed.
    Lemma results_length : length zs = K.
    Proof. rewrite <- elements_length. symmetry. apply (Forall2_len _ _ _ _ _ (res_map_ok _ _ _ _ _ Hzs)). Qed.

    Lemma first_state : forall i z a, outcome F points k env q i z -> nth_error (z_x z) 0 = Some a -> vals a (x_at k q i 0%Q).
    Proof.
      intros i z a Hz Ha. destruct (Forall2_nth _ _ _ _ _ _ _ (oc_x _ _ _ _ _ _ _ Hz) Ha) as [tau [Et V]].
      injection Et as <-. exact V.
    Qed.
    Lemma last_state : forall i z a, outcome F points k env q i z -> last_of (z_x z) = Ok a -> vals a (x_at k q i 1%Q).
    Proof.
      intros i z a Hz Ha. destruct (last_of_ok _ _ _ Ha) as [l El]. pose proof (oc_x _ _ _ _ _ _ _ Hz) as H. rewrite El in H.
      apply (Forall2_last _ _ _ _ _ _ 0%Q) in H. eapply vals_Qeq; [exact H|]. apply x_at_Qeq, (last_point points k s T Hpts Hp Hx0 HK).
    Qed.

    Lemma include_element_imposes : forall i,
        imposes (include_element points k (r_u r) (ps_last_u s) f_der the_elements zs i) (element_ok i) (element_rows i).
    Proof.
      intros i. unfold include_element. apply imposes_res. intros e He. apply imposes_res. intros z Hz.
      apply at_index_ok in He, Hz. destruct (result_at i z Hz) as [Hi [e' [He' [Hf Ho]]]].
      rewrite He in He'. injection He' as <-.
      unfold element_ok, element_rows.
      apply imposes_seq; [|apply imposes_seq; [|apply imposes_seq; [|apply imposes_seq; [|apply imposes_seq]]]].
      - destruct i as [|i']; [apply imposes_ret|].
        apply imposes_res. intros z' Hz'. apply imposes_res. intros a Ha. apply imposes_res. intros b Hb.
        apply imposes_res. intros d Hd. apply at_index_ok in Hz', Hb.
        destruct (result_at i' z' Hz') as [_ [e' [_ [_ Ho']]]].
        assert (Va := last_state _ _ _ Ho' Ha). assert (Vb := first_state _ _ _ Ho Hb).
        assert (L : length (x_at k q i' 1%Q) = length (x_at k q (S i') 0%Q)) by (rewrite !len_x; reflexivity).
        eapply imposes_iff; [apply (vec_sub_vals F env _ _ _ _ d Va Vb L Hd)| |apply len_x].
        unfold joined_at, x_at. rewrite Forall2_maps by reflexivity. split.
        + intros H c Hc. apply (H c c c); apply nth_seq, Hc.
        + intros H c a' b' H1 H2. apply nth_seq_inv in H1, H2. destruct H1 as [Hc ->], H2 as [_ ->]. apply H, Hc.
      - eapply imposes_iff; [apply imposes_run; intros j _; apply (include_derivative_imposes F points dfun k env s r q HF T Hpts Sh D i e z Hi Hf Ho f_der j Hder)
                            |apply (dynamics_iff i e Hf)|].
        rewrite list_sum_const, seq_length. reflexivity.
      - eapply imposes_iff; [apply imposes_run; intros j _; apply (include_algebraic_imposes F points k env q i z Ho j)
                            |apply (algebraic_iff i)|].
        rewrite list_sum_const, seq_length. reflexivity.
      - apply (include_increments_imposes F points k env s r q T D i Hi).
      - destruct (oc_ineq _ _ _ _ _ _ _ Ho) as [H1 H2].
        apply (constraint_rows F points k env q i nlp_upper_zero (fun v => v <= 0)%Q); try assumption.
        + intros a b E. rewrite E. reflexivity.
        + intros es vs V. apply imposes_upper, V.
      - destruct (oc_eq _ _ _ _ _ _ _ Ho) as [H1 H2].
        apply (constraint_rows F points k env q i nlp_equality (fun v => v == 0)%Q); try assumption.
        + intros a b E. rewrite E. reflexivity.
        + intros es vs V. apply imposes_equality, V.
    Qed.
  End Results.

  (** ** The ends *)

  Lemma vanishing_rows : forall es out i tau, vals out (map (eval F (at_point k q i tau)) es) ->
      imposes (nlp_equality out) (vanishes F k q es i tau) (length es).
  Proof.
    intros es out i tau V. assert (L := vals_length _ _ _ _ V). rewrite map_length in L.
    eapply imposes_iff; [apply (imposes_equality F env _ _ V)| |exact L].
    unfold vanishes. rewrite Forall_map, Forall_forall. reflexivity.
  Qed.

  Lemma initial_imposes : forall x00,
      (match at_index (r_x r) 0 IndexError with Ok l => at_index l 0 IndexError | Raise e => Raise e end) = Ok x00 ->
      imposes (include_initial k x00 (ps_x0 s)) (vanishes F k q (o_h_initial o) 0 0%Q) (length (o_h_initial o)).
  Proof.
    intros x00 H. destruct (at_index (r_x r) 0 IndexError) as [l|] eqn:El; [|discriminate]. apply at_index_ok in El, H.
    unfold include_initial. apply imposes_res. intros f Hf. apply imposes_res. intros e He. apply vanishing_rows.
    assert (H0 : 0 < K) by (unfold K; lia).
    refine (call_blocks F env _ _ _ _ _ _ HF (initial_NoDup k T) Hf He _).
    apply Forall2_cons; [|apply Forall2_cons; [|constructor]].
    - rewrite (point_x k q T 0 0%Q).
      assert (R : length x00 = n_x k).
      { destruct Sh as [[_ G] _]. rewrite Forall_forall in G. destruct (G l (nth_error_In _ _ El)) as [_ R].
        rewrite Forall_forall in R. apply R, (nth_error_In _ _ H). }
      apply vals_intro; [rewrite map_length, len_x; exact R|].
      intros i ex v Hex Hv. unfold x_at in Hv. rewrite nth_error_map in Hv.
      destruct (nth_error (seq 0 _) i) as [j|] eqn:Ej; [|discriminate]. apply nth_seq_inv in Ej. destruct Ej as [Hi ->].
      injection Hv as <-. rewrite nth_error_map in Hex. destruct (nth_error x00 i) as [x|] eqn:Ex; [|discriminate].
      injection Hex as <-. cbn [eval]. destruct (de_x _ _ _ _ _ _ D 0 i H0 Hi) as [_ B]. symmetry.
      apply (B 0 0%Q x); [reflexivity|]. unfold entry. rewrite El, H. exact Ex.
    - rewrite (point_x0 points k env s r q T Sh D Hp Hth Hx0 0 0%Q H0), (de_x0 _ _ _ _ _ _ D). apply vals_vars.
  Qed.

  Lemma final_imposes : forall x_f, vals x_f (x_at k q (K - 1) 1%Q) ->
      imposes (include_final k x_f (r_eta r) (with_p_opt k (ps_p s) r))
        (vanishes F k q (o_h_final o) (K - 1) 1%Q /\ vanishes F k q (o_h o) (K - 1) 1%Q)
        (length (o_h_final o) + length (o_h o)).
  Proof.
    intros x_f Vx. assert (Hl : K - 1 < K) by (unfold K; lia).
    unfold include_final. apply imposes_res. intros f Hf. apply imposes_res. intros e He.
    apply imposes_seq.
    - apply vanishing_rows. refine (call_blocks F env _ _ _ _ _ _ HF (final_NoDup k T) Hf He _).
      apply Forall2_cons; [|apply Forall2_cons; [|apply Forall2_cons; [|constructor]]].
      + rewrite (point_x k q T _ 1%Q). exact Vx.
      + rewrite (point_eta points k env s r q T Sh D Hp Hth Hx0 _ 1%Q Hl), (de_eta _ _ _ _ _ _ D). apply vals_vars.
      + rewrite (point_p points k env s r q T D _ 1%Q). apply p_vals.
    - apply imposes_res. intros g Hg. apply imposes_res. intros e' He'.
      apply vanishing_rows. refine (call_blocks F env _ _ _ _ _ _ HF _ Hg He' _).
      + cbn [concat]. rewrite app_nil_r. apply (p_NoDup k T).
      + apply Forall2_cons; [|constructor]. rewrite (point_p points k env s r q T D _ 1%Q). apply p_vals.
  Qed.
End Assembly.

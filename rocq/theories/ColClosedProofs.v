(** Proofs about the symbols of the nonlinear program of collocation: they are its decision
    variables and its parameters. *)
From Coq Require Import String Lqa Permutation.
From Verif Require Import Base BaseProofs UtilModel UtilProofs ExprModel ExprProofs NlpModel NlpSpec NlpProofs SysModel
  SysSpec SysProofs OcpModel OcpSpec OcpMoreProofs LagModel LagSpec LagProofs DiscModel DiscSpec DiscProofs
  ColSpec ColEvalProofs ColProofs ColElementProofs ColIncludeProofs ColAssemblyProofs ColMainProofs ColTopProofs.
Local Open Scope list_scope.
Local Open Scope nat_scope.

(** ** Declared parameters *)

Lemma parametrised_iff : forall k, parametrised k <-> has_parameters k = true.
Proof.
  intros k. unfold parametrised, has_parameters, n_p, n_theta. rewrite !Bool.orb_true_iff, Nat.ltb_lt. split.
  - intros [H|[H|[H|H]]].
    + left. left. destruct (m_p (k_model k)); [congruence | cbn [length]; lia].
    + left. left. destruct (m_theta (k_model k)); [congruence | cbn [length]; lia].
    + left. right. exact H.
    + right. destruct (o_last_u (k_problem k)); [reflexivity | congruence].
  - intros [[H|H]|H].
    + destruct (m_p (k_model k)) eqn:E; [|left; congruence]. right. left. destruct (m_theta (k_model k)) eqn:E'; [|congruence].
      rewrite ?E, ?E' in H. cbn [length] in H. lia.
    + right. right. left. exact H.
    + right. right. right. destruct (o_last_u (k_problem k)); [congruence | discriminate].
Qed.

Lemma create_np : forall (A : Type) (disc : par_syms -> cmd nlp_state A) k c n s r,
    create_optimization_problem disc k c = Ok (n, s, r) ->
    exists n0 c0, disc s (nlp_init, c + length (all_mx s)) = ((n0, c0), Ok r) /\
      np n = np n0 ++ (if has_parameters k then all_mx s else []).
Proof.
  intros A disc k c n s r H. unfold create_optimization_problem in H.
  destruct (disc (parameter_symbols k c) _) as [[n0 c0] [r'|e]] eqn:E; [|discriminate].
  injection H as <- <- <-. exists n0, c0. split; [exact E|]. destruct (has_parameters k); [reflexivity|]. symmetry. apply app_nil_r.
Qed.

Lemma col_np : forall points dfun k c n s r,
    transcribable k -> collocation_points (points (k_degree k)) (k_degree k) ->
    create_optimization_problem (collocation_discretize points dfun k) k c = Ok (n, s, r) ->
    np n = if has_parameters k then all_mx s else [].
Proof.
  intros points dfun k c n s r T P H. destruct (trajectory_exists points dfun k c n s r (fun _ => 0%Q) T P H) as [q D].
  destruct (create_inv _ _ _ _ _ _ _ H) as [Es _]. destruct (create_np _ _ _ _ _ _ _ H) as [n0 [c0 [Hd Enp]]].
  destruct (parameter_lengths k c) as [Hp Hx0]. rewrite <- Es in Hp, Hx0.
  assert (Hth : rows (k_elements k) (n_theta k) (ps_theta s)) by (rewrite Es; apply theta_syms_rows).
  destruct (discretize_ok (fun _ x => x) points dfun k s (fun f a b E => E) T P Hp Hth Hx0 _ _ _ _ _ Hd) as [_ [_ [_ G]]].
  cbv zeta in G. destruct (G _ _ D) as [l [cost [E _]]]. rewrite Enp, E. reflexivity.
Qed.

(** ** Values at other symbols do not matter *)

Lemma map_same : forall (env env' : sym -> Q) l, (forall v, In v l -> env v = env' v) -> map env l = map env' l.
Proof. intros env env' l H. apply map_ext_in. exact H. Qed.

Lemma in_concat_nth : forall (A : Type) (l : list (list A)) i r x, nth_error l i = Some r -> In x r -> In x (concat l).
Proof. intros A l i r x Hr Hx. apply in_concat. exists r. split; [exact (nth_error_In _ _ Hr) | exact Hx]. Qed.
Lemma entry_in : forall (A : Type) (l : list (list (list A))) e j i v, entry l e j i = Some v -> In v (concat (concat l)).
Proof.
  intros A l e j i v H. unfold entry in H. destruct (nth_error l e) as [r|] eqn:Er; [|discriminate].
  destruct (nth_error r j) as [w|] eqn:Ew; [|discriminate]. apply in_concat. exists w. split; [|exact (nth_error_In _ _ H)].
  apply (in_concat_nth _ l e r w Er). exact (nth_error_In _ _ Ew).
Qed.
Lemma entry2_in : forall (A : Type) (l : list (list A)) e i v, entry2 l e i = Some v -> In v (concat l).
Proof.
  intros A l e i v H. unfold entry2 in H. destruct (nth_error l e) as [r|] eqn:Er; [|discriminate].
  exact (in_concat_nth _ l e r v Er (nth_error_In _ _ H)).
Qed.

Section Same.
  Variables (k : method) (r : traj sym) (env env' : sym -> Q).
  Hypothesis S : forall v, In v (flatten r) -> env v = env' v.

  Lemma same_x : forall v, In v (concat (concat (r_x r))) -> env v = env' v.
  Proof. intros v H. apply S. unfold flatten. apply in_or_app. left. exact H. Qed.
  Lemma same_y : forall v, In v (concat (concat (r_y r))) -> env v = env' v.
  Proof. intros v H. apply S. unfold flatten. apply in_or_app. right. apply in_or_app. left. exact H. Qed.
  Lemma same_u : forall v, In v (concat (concat (r_u r))) -> env v = env' v.
  Proof. intros v H. apply S. unfold flatten. do 2 (apply in_or_app; right). apply in_or_app. left. exact H. Qed.
  Lemma same_eta : forall v, In v (r_eta r) -> env v = env' v.
  Proof. intros v H. apply S. unfold flatten. do 3 (apply in_or_app; right). apply in_or_app. left. exact H. Qed.
  Lemma same_p : forall v, In v (r_p r) -> env v = env' v.
  Proof. intros v H. apply S. unfold flatten. do 4 (apply in_or_app; right). apply in_or_app. left. exact H. Qed.
  Lemma same_theta : forall v, In v (concat (r_theta r)) -> env v = env' v.
  Proof. intros v H. apply S. unfold flatten. do 5 (apply in_or_app; right). exact H. Qed.

  Lemma bounded_same : bounded k env r -> bounded k env' r.
  Proof.
    intros [B1 B2 B3 B4 B5]. constructor.
    - intros el j i v lo hi Hv. rewrite <- (same_x v (entry_in _ _ _ _ _ _ Hv)). exact (B1 el j i v lo hi Hv).
    - intros el j i v lo hi Hv. rewrite <- (same_y v (entry_in _ _ _ _ _ _ Hv)). exact (B2 el j i v lo hi Hv).
    - intros el j i v lo hi Hv. rewrite <- (same_u v (entry_in _ _ _ _ _ _ Hv)). exact (B3 el j i v lo hi Hv).
    - intros i v lo hi Hv. rewrite <- (same_p v (nth_error_In _ _ Hv)). exact (B4 i v lo hi Hv).
    - intros el i v lo hi Hv. rewrite <- (same_theta v (entry2_in _ _ _ _ _ Hv)). exact (B5 el i v lo hi Hv).
  Qed.

  (** The parameters may differ in the initial condition [x0]. *)
  Lemma describes_same : forall pts s q, (forall v, In v (ps_p s ++ concat (ps_theta s) ++ ps_last_u s) -> env v = env' v) ->
      describes k pts env s r q ->
      describes k pts env' s r (mkTrajectory (q_x q) (q_y q) (q_u q) (q_p q) (q_theta q) (q_eta q) (map env' (ps_x0 s)) (q_last_u q)).
  Proof.
    intros pts s q Sp [D1 D2 D3 D4 D5 D6 D7 D8]. constructor; cbn [q_x q_y q_u q_p q_theta q_eta q_x0 q_last_u].
    - intros el i Hel Hi. destruct (D1 el i Hel Hi) as [L E]. split; [exact L|]. intros j tau v Ht Hv.
      rewrite <- (same_x v (entry_in _ _ _ _ _ _ Hv)). exact (E j tau v Ht Hv).
    - intros el i Hel Hi. destruct (D2 el i Hel Hi) as [L E]. split; [exact L|]. intros j tau v Ht Hv.
      rewrite <- (same_y v (entry_in _ _ _ _ _ _ Hv)). exact (E j tau v Ht Hv).
    - intros el l Hl. rewrite (D3 el l Hl). apply map_same. intros v Hv. apply same_u.
      apply in_concat in Hv. destruct Hv as [w [Hw Hv]].
      apply in_concat. exists w. split; [exact (in_concat_nth _ _ _ _ _ Hl Hw) | exact Hv].
    - rewrite <- (map_same env env' (ps_p s)), <- (map_same env env' (r_p r)); [exact D4 | exact same_p |].
      intros v Hv. apply Sp, in_or_app. left. exact Hv.
    - intros el given decided Hg Hd. rewrite <- (map_same env env' given), <- (map_same env env' decided).
      + exact (D5 el given decided Hg Hd).
      + intros v Hv. apply same_theta. exact (in_concat_nth _ _ _ _ _ Hd Hv).
      + intros v Hv. apply Sp, in_or_app. right. apply in_or_app. left. exact (in_concat_nth _ _ _ _ _ Hg Hv).
    - rewrite D6. apply map_same, same_eta.
    - reflexivity.
    - rewrite D8. apply map_same. intros v Hv. apply Sp. do 2 (apply in_or_app; right). exact Hv.
  Qed.
End Same.

Lemma in_all_mx : forall s v, In v (all_mx s) <-> In v (ps_x0 s) \/ In v (ps_p s ++ concat (ps_theta s) ++ ps_last_u s).
Proof. intros s v. unfold all_mx. rewrite !in_app_iff. tauto. Qed.

Lemma feasible_same : forall F points dfun k c n s r,
    respects F -> transcribable k -> collocation_points (points (k_degree k)) (k_degree k) ->
    create_optimization_problem (collocation_discretize points dfun k) k c = Ok (n, s, r) ->
    forall env env', (forall v, In v (flatten r) \/ In v (all_mx s) -> env v = env' v) ->
      (feasible F env n <-> feasible F env' n) /\
      (k_direct k = true -> forall v w, o_V (k_problem k) = [v] -> o_S (k_problem k) = [w] ->
         exists e, nf n = [e] /\ (eval F env e == eval F env' e)%Q).
Proof.
  intros F points dfun k c n s r HF T P H env env' Sm.
  destruct (trajectory_exists points dfun k c n s r env T P H) as [q D].
  assert (D' : describes k (points (k_degree k)) env' s r q).
  { pose proof (describes_same k r env env' (fun v I => Sm v (or_introl I)) _ s q
      (fun v I => Sm v (or_intror (proj2 (in_all_mx s v) (or_intror I)))) D) as D'.
    rewrite <- (map_same env env' (ps_x0 s)), <- (de_x0 _ _ _ _ _ _ D) in D'.
    - destruct q. exact D'.
    - intros v I. apply Sm. right. apply in_all_mx. left. exact I. }
  assert (B : bounded k env r <-> bounded k env' r).
  { split; apply bounded_same; intros v I; [apply Sm | symmetry; apply Sm]; left; exact I. }
  split.
  - rewrite (w_C58_feasible F points dfun k c n s r HF T P H env q D), (w_C58_feasible F points dfun k c n s r HF T P H env' q D'), B. reflexivity.
  - intros Hd v w EV ES. destruct (w_C58_direct_cost F points dfun k c n s r v w HF T P H Hd EV ES) as [e [E V]].
    exists e. split; [exact E|]. rewrite (V env q D), (V env' q D'). reflexivity.
Qed.

Lemma w_C58_closed : forall F points dfun k c n s r,
    respects F -> transcribable k -> collocation_points (points (k_degree k)) (k_degree k) ->
    create_optimization_problem (collocation_discretize points dfun k) k c = Ok (n, s, r) -> parametrised k ->
    np n = all_mx s /\
    forall env env', same_declared n env env' ->
      (feasible F env n <-> feasible F env' n) /\
      (k_direct k = true -> forall v w, o_V (k_problem k) = [v] -> o_S (k_problem k) = [w] ->
         exists e, nf n = [e] /\ (eval F env e == eval F env' e)%Q).
Proof.
  intros F points dfun k c n s r HF T P H Pm. apply parametrised_iff in Pm.
  assert (E := col_np _ _ _ _ _ _ _ T P H). rewrite Pm in E. split; [exact E|]. intros env env' Sd.
  destruct (w_C58_variables _ _ _ _ _ _ _ T P H) as [Ex _].
  apply (feasible_same F points dfun k c n s r HF T P H). intros v. rewrite <- Ex, <- E. apply Sd.
Qed.

(** ** Without parameters the initial condition is not declared *)

Lemma w_C58_undeclared : forall F points dfun k c n s r,
    respects F -> transcribable k -> collocation_points (points (k_degree k)) (k_degree k) ->
    create_optimization_problem (collocation_discretize points dfun k) k c = Ok (n, s, r) ->
    ~ parametrised k -> fixes_a_state k ->
    np n = [] /\ forall env, exists env', same_declared n env env' /\ ~ feasible F env' n.
Proof.
  intros F points dfun k c n s r HF T P H Np [i [x [s0 [Hx [Hs0 Hin]]]]].
  assert (Hh : has_parameters k = false) by (destruct (has_parameters k) eqn:E; [exfalso; apply Np, parametrised_iff, E | reflexivity]).
  assert (E := col_np _ _ _ _ _ _ _ T P H). rewrite Hh in E. split; [exact E|]. intros env.
  destruct (create_inv _ _ _ _ _ _ _ H) as [Es _].
  destruct (w_C58_variables _ _ _ _ _ _ _ T P H) as [Ex ND].
  destruct (trajectory_exists points dfun k c n s r env T P H) as [q D].
  destruct (parameter_lengths k c) as [Hp Hx0]. rewrite <- Es in Hp, Hx0.
  assert (Li : i < length (ps_x0 s)).
  { rewrite Hx0. change (n_x k) with (length (m_x (k_model k))). apply nth_error_Some. congruence. }
  destruct (nth_error (ps_x0 s) i) as [v0|] eqn:Ev0; [|apply nth_error_None in Ev0; lia].
  assert (Iv0 : In v0 (ps_x0 s)) by exact (nth_error_In _ _ Ev0).
  set (env' := fun v => if Nat.eqb v v0 then (poly (q_x q 0 i) 0 + 1)%Q else env v).
  assert (Out : forall v, v <> v0 -> env v = env' v).
  { intros v Hv. unfold env'. destruct (Nat.eqb_spec v v0); [contradiction | reflexivity]. }
  assert (Nf : ~ In v0 (flatten r)).
  { intros I. apply (NoDup_app_disjoint _ _ _ v0 ND); [apply in_all_mx; left; exact Iv0 | exact I]. }
  assert (Nr : ~ In v0 (ps_p s ++ concat (ps_theta s) ++ ps_last_u s)).
  { intros I. apply NoDup_app_l in ND. unfold all_mx in ND.
    assert (ND' : NoDup (ps_x0 s ++ ps_p s ++ concat (ps_theta s) ++ ps_last_u s)).
    { apply (Permutation_NoDup (l := ps_p s ++ concat (ps_theta s) ++ ps_x0 s ++ ps_last_u s)); [|exact ND].
      rewrite (Permutation_app_swap_app (concat (ps_theta s)) (ps_x0 s) (ps_last_u s)). apply Permutation_app_swap_app. }
    exact (NoDup_app_disjoint _ _ _ v0 ND' Iv0 I). }
  exists env'. split.
  - intros v [I|I]; [|rewrite E in I; destruct I]. apply Out. intros ->. rewrite Ex in I. contradiction.
  - pose proof (describes_same k r env env' (fun v I => Out v (fun e => Nf (eq_ind v (fun a => In a _) I v0 e))) _ s q
      (fun v I => Out v (fun e => Nr (eq_ind v (fun a => In a _) I v0 e))) D) as D'.
    intros Fe. apply (w_C58_feasible F points dfun k c n s r HF T P H env' _ D') in Fe. destruct Fe as [_ Co].
    pose proof (co_initial _ _ _ _ Co _ Hin) as V. cbn [eval binop_eval] in V.
    set (q' := mkTrajectory _ _ _ _ _ _ _ _) in V.
    assert (Hth : rows (k_elements k) (n_theta k) (ps_theta s)) by (rewrite Es; apply theta_syms_rows).
    destruct (transcription F points dfun k c n s r HF T P H) as [_ [Sh [HK _]]].
    assert (K0 : 0 < k_elements k) by lia.
    pose proof (f_equal (fun l => nth_error l i) (point_x k q' T 0 0%Q)) as X1. cbv beta in X1.
    pose proof (f_equal (fun l => nth_error l i) (point_x0 points k env' s r q' T Sh D' Hp Hth Hx0 0 0%Q K0)) as X2. cbv beta in X2.
    rewrite nth_error_map, Hx in X1. rewrite nth_error_map, Hs0 in X2. cbn [option_map] in X1, X2.
    change (q_x0 q') with (map env' (ps_x0 s)) in X2. rewrite (map_nth_error env' i (ps_x0 s) Ev0) in X2. injection X2 as X2.
    unfold x_at in X1. rewrite nth_error_map in X1.
    destruct (nth_error (seq 0 (length (m_x (k_model k)))) i) as [j|] eqn:Ej; [|discriminate]. apply nth_seq_inv in Ej. destruct Ej as [_ ->].
    cbn [option_map] in X1. injection X1 as X1. change (q_x q') with (q_x q) in X1.
    rewrite X1, X2 in V. unfold env' in V. rewrite Nat.eqb_refl in V. revert V. generalize (poly (q_x q 0 i) 0). intros z V. lra.
Qed.

(** ** Examples *)

Definition closed_k : method := Eval vm_compute in
  match closed_tank as x return (match x with Ok _ => method | Raise _ => unit end) with Ok k => k | Raise _ => tt end.
Definition closed_nlp : nlp * par_syms * traj sym := Eval vm_compute in
  match create_optimization_problem (collocation_discretize radau_two (fun _ e => e) closed_k) closed_k 1000 as x
        return (match x with Ok _ => (nlp * par_syms * traj sym)%type | Raise _ => unit end) with Ok k => k | Raise _ => tt end.
Lemma closed_nlp_is :
  create_optimization_problem (collocation_discretize radau_two (fun _ e => e) closed_k) closed_k 1000 =
  Ok (fst (fst closed_nlp), snd (fst closed_nlp), snd closed_nlp).
Proof. vm_compute. reflexivity. Qed.

Lemma closed_tank_transcribable : transcribable closed_k.
Proof.
  constructor.
  - vm_compute. lia.
  - vm_compute. reflexivity.
  - split; [unfold aligned; vm_compute; repeat split|].
    repeat (split; [apply in_order_ok; vm_compute; reflexivity|]). apply in_order_ok; vm_compute; reflexivity.
  - apply nodup_ok. vm_compute. reflexivity.
  - split; [|split].
    + split; intros a Ha; vm_compute in Ha |- *; tauto.
    + apply nodup_ok. vm_compute. reflexivity.
    + apply nodup_ok. vm_compute. reflexivity.
  - split; [reflexivity|]. intros v oe H. vm_compute in H.
    repeat (destruct H as [H|H]; [injection H as _ <-; eexists; reflexivity|]). destruct H.
  - reflexivity.
  - reflexivity.
  - discriminate.
Qed.

Lemma w_closed_tank_undeclared : exists k n s r,
    closed_tank = Ok k /\ transcribable k /\ collocation_points (radau_two (k_degree k)) (k_degree k) /\
    create_optimization_problem (collocation_discretize radau_two (fun _ e => e) k) k 1000 = Ok (n, s, r) /\
    ~ parametrised k /\ fixes_a_state k /\ length (nx n) = 14 /\ length (all_mx s) = 2.
Proof.
  exists closed_k, (fst (fst closed_nlp)), (snd (fst closed_nlp)), (snd closed_nlp).
  split; [vm_compute; reflexivity|]. split; [exact closed_tank_transcribable|]. split; [vm_compute; repeat split; repeat constructor|].
  split; [exact closed_nlp_is|]. split.
  - intros [H|[H|[H|H]]]; vm_compute in H; congruence.
  - split; [|split; reflexivity]. exists 0, 10, 12. split; [reflexivity|]. split; [reflexivity|]. vm_compute. left. reflexivity.
Qed.

Lemma w_limited_cart_closed : exists k n s r,
    limited_cart = Ok k /\ transcribable k /\ collocation_points (radau_two (k_degree k)) (k_degree k) /\
    create_optimization_problem (collocation_discretize radau_two (fun _ e => e) k) k 1000 = Ok (n, s, r) /\
    parametrised k /\ length (np n) = 10 /\ length (nx n) = 27.
Proof.
  exists limited_k, (fst (fst limited_nlp)), (snd (fst limited_nlp)), (snd limited_nlp).
  split; [exact limited_cart_is|]. split; [exact limited_cart_transcribable|]. split; [exact radau_two_points|].
  split; [exact limited_nlp_is|]. split; [left; discriminate|]. split; reflexivity.
Qed.

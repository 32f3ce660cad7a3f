(** Proofs about the transcription by collocation: the whole call. *)
From Coq Require Import String Sorted SetoidList Permutation Lqa.
From Verif Require Import Base BaseProofs UtilModel UtilProofs ExprModel ExprProofs NlpModel NlpSpec NlpProofs SysModel
  SysSpec SysProofs SimModel OcpModel OcpSpec OcpMoreProofs LagModel LagSpec LagProofs DiscModel DiscSpec DiscProofs
  ColSpec ColPolyProofs ColEvalProofs ColProofs ColElementProofs ColIncludeProofs ColAssemblyProofs ColMainProofs.
Local Open Scope list_scope.
Local Open Scope nat_scope.

(** ** Results for the whole call *)

Lemma parameter_lengths : forall k c, length (ps_p (parameter_symbols k c)) = n_p k /\ length (ps_x0 (parameter_symbols k c)) = n_x k.
Proof. intros k c. unfold parameter_symbols. cbn [ps_p ps_x0]. rewrite !seq_length. split; reflexivity. Qed.

Lemma create_inv : forall (A : Type) (disc : par_syms -> cmd nlp_state A) k c n s r, create_optimization_problem disc k c = Ok (n, s, r) ->
    s = parameter_symbols k c /\ exists n0 c0, disc s (nlp_init, c + length (all_mx s)) = ((n0, c0), Ok r) /\
    nx n = nx n0 /\ nx_lb n = nx_lb n0 /\ nx_ub n = nx_ub n0 /\ ng n = ng n0 /\ ng_lb n = ng_lb n0 /\ ng_ub n = ng_ub n0 /\ nf n = nf n0.
Proof.
  intros A disc k c n s r H. unfold create_optimization_problem in H.
  destruct (disc (parameter_symbols k c) _) as [[n0 c0] [r'|e]] eqn:E; [|discriminate].
  injection H as <- <- <-. split; [reflexivity|]. exists n0, c0. split; [exact E|].
  destruct (has_parameters k); repeat split; reflexivity.
Qed.

Lemma transcription : forall F points dfun k c n s r,
    respects F -> transcribable k -> collocation_points (points (k_degree k)) (k_degree k) ->
    create_optimization_problem (collocation_discretize points dfun k) k c = Ok (n, s, r) ->
    s = parameter_symbols k c /\ collocation_shape k r /\ k_elements k <> 0 /\
    flatten r = seq (c + length (all_mx s)) (length (flatten r)) /\
    forall env q, describes k (points (k_degree k)) env s r q ->
      (feasible F env n <-> bounded k env r /\ collocated F k q (points (k_degree k))) /\
      length (ng n) = collocation_constraints k /\
      (k_direct k = true -> forall v w, o_V (k_problem k) = [v] -> o_S (k_problem k) = [w] ->
         exists e, nf n = [e] /\ (eval F env e == trajectory_cost F k q v w)%Q) /\
      (k_direct k = false -> nf n = [EConst 0%Q]).
Proof.
  intros F points dfun k c n s r HF T Hpts H. destruct (create_inv _ _ _ _ _ _ _ H) as [Es [n0 [c0 [Hd Hn]]]].
  split; [exact Es|]. destruct (parameter_lengths k c) as [Hp Hx0]. rewrite <- Es in Hp, Hx0.
  assert (Hth : rows (k_elements k) (n_theta k) (ps_theta s)) by (rewrite Es; apply theta_syms_rows).
  destruct (discretize_ok F points dfun k s HF T Hpts Hp Hth Hx0 _ _ _ _ _ Hd) as [Sh [HK [Ef G]]].
  split; [exact Sh|]. split; [exact HK|]. split; [exact Ef|]. intros env q D. cbv zeta in G.
  destruct (G env q D) as [l [cost [E [C [L [V W]]]]]]. clear G.
  destruct Hn as [N1 [N2 [N3 [N4 [N5 [N6 N7]]]]]].
  assert (Ff : feasible F env n <-> feasible F env n0) by (unfold feasible; rewrite N1, N2, N3, N4, N5, N6; reflexivity).
  split; [|split; [|split]].
  - rewrite Ff, E. unfold with_objective.
    set (base := add_variables nlp_init _ _ _) in *.
    transitivity (feasible F env (add_rows base l)); [reflexivity|].
    rewrite feasible_add_rows by reflexivity. rewrite C.
    assert (B : feasible F env base <-> bounded k env r).
    { rewrite <- (bounds_iff F env k _ _ _ r (tr_bounds _ T) Sh). unfold feasible, base, add_variables, nlp_init. cbn.
      split; [intros [A _]; exact A|]. intros A. split; [exact A|]. intros i a b d Ha. destruct i; discriminate. }
    rewrite B. reflexivity.
  - rewrite N4, E. unfold with_objective. cbn [ng]. unfold add_rows. cbn [ng]. rewrite app_length, map_length, L.
    cbn. apply (count_rows points k s Hpts Hp Hx0 HK).
  - rewrite N7, E. exact V.
  - rewrite N7, E. exact W.
Qed.

(** ** Every decision vector has its trajectory *)

Lemma finite_choice : forall (A : Type) (d : A) (P : nat -> A -> Prop) n,
    (forall i, i < n -> exists a, P i a) -> exists f, forall i, i < n -> P i (f i).
Proof.
  intros A d P n. induction n as [|n IH]; intros H; [exists (fun _ => d); intros i Hi; lia|].
  destruct IH as [f Hf]; [intros i Hi; apply H; lia|]. destruct (H n) as [a Ha]; [lia|].
  exists (fun i => if i =? n then a else f i). intros i Hi. destruct (Nat.eqb_spec i n) as [->|]; [exact Ha | apply Hf; lia].
Qed.

Lemma interpolate_grid : forall {A : Type} (env : A -> Q) roots n d size (l : list (list (list A))), distinct roots -> length roots = d ->
    grid n d size l ->
    exists f : nat -> nat -> list Q, forall el i, el < n -> i < size -> length (f el i) <= d /\
      forall j tau v, nth_error roots j = Some tau -> entry l el j i = Some v -> (poly (f el i) tau == env v)%Q.
Proof.
  intros A env roots n d size l Hd Hr G.
  destruct (finite_choice _ (fun _ => []) (fun el (f : nat -> list Q) => forall i, i < size -> length (f i) <= d /\
      forall j tau v, nth_error roots j = Some tau -> entry l el j i = Some v -> (poly (f i) tau == env v)%Q) n) as [f Hf].
  - intros el Hel. apply (finite_choice _ [] (fun i c => length c <= d /\
      forall j tau v, nth_error roots j = Some tau -> entry l el j i = Some v -> (poly c tau == env v)%Q)).
    intros i Hi.
    destruct (interpolant roots (fun j => match entry l el j i with Some v => env v | None => 0%Q end) Hd) as [c [Lc Hc]].
    exists c. split; [lia|]. intros j tau v Ht Hv. assert (Hj : j < length roots) by (apply nth_error_Some; congruence).
    specialize (Hc j Hj). rewrite Hv, (nth_error_nth _ _ _ Ht) in Hc. exact Hc.
  - exists f. intros el i Hel. apply Hf, Hel.
Qed.

Lemma trajectory_exists : forall points dfun k c n s r env,
    transcribable k -> collocation_points (points (k_degree k)) (k_degree k) ->
    create_optimization_problem (collocation_discretize points dfun k) k c = Ok (n, s, r) ->
    exists q, describes k (points (k_degree k)) env s r q.
Proof.
  intros points dfun k c n s r env T Hpts H.
  destruct (transcription (fun _ x => x) points dfun k c n s r) as [Es [Sh [HK [_ _]]]];
    [intros f a b E; exact E | exact T | exact Hpts | exact H|].
  assert (Hs : distinct (0%Q :: points (k_degree k))) by (apply sorted_distinct, Hpts).
  assert (Lp : length (points (k_degree k)) = k_degree k) by apply Hpts.
  pose proof Sh as [Gx [Gy [Gu [He [Hpo Gt]]]]].
  destruct (interpolate_grid env _ _ _ _ _ Hs (eq_refl _ : length (0%Q :: points (k_degree k)) = _) (eq_ind _ (fun d => grid _ d _ _) Gx _ (eq_trans (Nat.add_1_r _) (f_equal S (eq_sym Lp))))) as [fx Hfx].
  destruct (interpolate_grid env _ _ _ _ _ (distinct_tail _ _ Hs) Lp Gy) as [fy Hfy].
  destruct (parameter_lengths k c) as [Hp _]. rewrite <- Es in Hp.
  assert (Hth : rows (k_elements k) (n_theta k) (ps_theta s)) by (rewrite Es; apply theta_syms_rows).
  destruct (tr_own _ T) as [[O1 O2] [N1 N2]].
  exists (mkTrajectory fx fy (fun el => match nth_error (r_u r) el with Some l => map env (concat l) | None => [] end)
    (map (eval (fun _ x => x) env) (put_values (map EVar (ps_p s)) (get_p_opt_indices (k_problem k)) (map EVar (r_p r))))
    (fun el => match nth_error (ps_theta s) el, nth_error (r_theta r) el with
               | Some g, Some d => map (eval (fun _ x => x) env) (put_values (map EVar g) (get_theta_opt_indices (k_problem k)) (map EVar d))
               | _, _ => []
               end)
    (map env (r_eta r)) (map env (ps_x0 s)) (map env (ps_last_u s))).
  constructor; cbn [q_x q_y q_u q_p q_theta q_eta q_x0 q_last_u]; try reflexivity.
  - intros el i Hel Hi. rewrite Lp. destruct (Hfx el i Hel Hi) as [A B]. cbn [length] in A. rewrite Lp in A. split; [exact A | exact B].
  - intros el i Hel Hi. rewrite Lp. apply (Hfy el i Hel Hi).
  - intros el l E. rewrite E. reflexivity.
  - apply chosen_exists; [apply (p_NoDup k T) | exact N1 | | exact Hp | exact Hpo].
    apply (opt_indices (k_problem k) O1), (p_NoDup k T).
  - intros el g d Eg Ed. rewrite Eg, Ed. destruct Hth as [_ R1]. destruct Gt as [_ R2]. rewrite Forall_forall in R1, R2.
    apply chosen_exists; [apply (theta_NoDup k T) | exact N2 | | apply R1, (nth_error_In _ _ Eg) | apply R2, (nth_error_In _ _ Ed)].
    apply (opt_theta_indices (k_problem k) O2), (theta_NoDup k T).
Qed.

Lemma trajectory_unique : forall points k env s r q q',
    collocation_points (points (k_degree k)) (k_degree k) -> collocation_shape k r ->
    describes k (points (k_degree k)) env s r q -> describes k (points (k_degree k)) env s r q' ->
    (forall el i t, el < k_elements k -> i < length (m_x (k_model k)) -> (poly (q_x q el i) t == poly (q_x q' el i) t)%Q) /\
    (forall el i t, el < k_elements k -> i < length (m_y (k_model k)) -> (poly (q_y q el i) t == poly (q_y q' el i) t)%Q).
Proof.
  intros points k env s r q q' Hpts Sh D D'.
  assert (Hs : distinct (0%Q :: points (k_degree k))) by (apply sorted_distinct, Hpts).
  assert (Lp : length (points (k_degree k)) = k_degree k) by apply Hpts.
  destruct Sh as [Gx [Gy _]].
  assert (En : forall (l : list (list (list sym))) n d size el j i, grid n d size l -> el < n -> j < d -> i < size -> exists v, entry l el j i = Some v).
  { intros l n d size el j i [L G] Hel Hj Hi. unfold entry. rewrite Forall_forall in G.
    destruct (nth_error l el) as [w|] eqn:Ew; [|apply nth_error_None in Ew; lia].
    destruct (G w (nth_error_In _ _ Ew)) as [L1 G1]. rewrite Forall_forall in G1.
    destruct (nth_error w j) as [w'|] eqn:Ew'; [|apply nth_error_None in Ew'; lia].
    specialize (G1 w' (nth_error_In _ _ Ew')).
    destruct (nth_error w' i) as [v|] eqn:Ev; [exists v; reflexivity | apply nth_error_None in Ev; lia]. }
  split; intros el i t Hel Hi.
  - destruct (de_x _ _ _ _ _ _ D el i Hel Hi) as [A B]. destruct (de_x _ _ _ _ _ _ D' el i Hel Hi) as [A' B'].
    apply (interpolation_unique (0%Q :: points (k_degree k))); [exact Hs | exact A | exact A'|].
    intros x Hx. apply In_nth_error in Hx. destruct Hx as [j Hj].
    assert (j < length (0%Q :: points (k_degree k))) by (apply nth_error_Some; congruence). cbn [length] in H.
    destruct (En _ _ _ _ el j i Gx Hel) as [v Hv]; [lia | exact Hi|].
    rewrite (B j x v Hj Hv), (B' j x v Hj Hv). reflexivity.
  - destruct (de_y _ _ _ _ _ _ D el i Hel Hi) as [A B]. destruct (de_y _ _ _ _ _ _ D' el i Hel Hi) as [A' B'].
    apply (interpolation_unique (points (k_degree k))); [exact (distinct_tail _ _ Hs) | exact A | exact A'|].
    intros x Hx. apply In_nth_error in Hx. destruct Hx as [j Hj].
    assert (j < length (points (k_degree k))) by (apply nth_error_Some; congruence).
    destruct (En _ _ _ _ el j i Gy Hel) as [v Hv]; [lia | exact Hi|].
    rewrite (B j x v Hj Hv), (B' j x v Hj Hv). reflexivity.
Qed.

(** ** Every trajectory has its decision vector *)

Definition traj_map {A B : Type} (f : A -> B) (r : traj A) : traj B :=
  mkTraj (map (map (map f)) (r_x r)) (map (map (map f)) (r_y r)) (map (map (map f)) (r_u r))
         (map f (r_eta r)) (map f (r_p r)) (map (map f) (r_theta r)).
Lemma flatten_map : forall (A B : Type) (f : A -> B) (r : traj A), flatten (traj_map f r) = map f (flatten r).
Proof.
  intros A B f r. unfold flatten, traj_map. cbn [r_x r_y r_u r_eta r_p r_theta]. rewrite !map_app.
  rewrite !(map_concat_rows _ _ f), !(concat_map (map f)). reflexivity.
Qed.
Lemma grid_map : forall (A B : Type) (f : A -> B) n m d l, grid n m d l -> grid n m d (map (map (map f)) l).
Proof.
  intros A B f n m d l [H1 H2]. split; [rewrite map_length; exact H1|]. apply Forall_map.
  eapply Forall_impl; [|exact H2]. intros v. apply rows_map.
Qed.
Lemma shaped_map : forall (A B : Type) (f : A -> B) k ne nx ny r, shaped k ne nx ny r -> shaped k ne nx ny (traj_map f r).
Proof.
  intros A B f k ne nx ny r [H1 [H2 [H3 [H4 [H5 H6]]]]]. unfold shaped, traj_map. cbn [r_x r_y r_u r_eta r_p r_theta].
  split; [apply grid_map, H1|]. split; [apply grid_map, H2|]. split; [apply grid_map, H3|].
  split; [rewrite map_length; exact H4|]. split; [rewrite map_length; exact H5 | apply rows_map, H6].
Qed.
Lemma entry_map : forall (A B : Type) (f : A -> B) l el j i v, entry l el j i = Some v -> entry (map (map (map f)) l) el j i = Some (f v).
Proof.
  intros A B f l el j i v H. unfold entry in *. rewrite nth_error_map. destruct (nth_error l el) as [w|]; [|discriminate].
  cbn [option_map]. rewrite nth_error_map. destruct (nth_error w j) as [w'|]; [|discriminate].
  cbn [option_map]. rewrite nth_error_map, H. reflexivity.
Qed.

Definition table {A : Type} (n m d : nat) (f : nat -> nat -> nat -> A) : list (list (list A)) :=
  map (fun el => map (fun j => map (fun i => f el j i) (seq 0 d)) (seq 0 m)) (seq 0 n).
Lemma table_grid : forall (A : Type) n m d (f : nat -> nat -> nat -> A), grid n m d (table n m d f).
Proof.
  intros A n m d f. unfold table. split; [rewrite map_length, seq_length; reflexivity|].
  apply Forall_map, Forall_forall. intros el _. split; [rewrite map_length, seq_length; reflexivity|].
  apply Forall_map, Forall_forall. intros j _. rewrite map_length, seq_length. reflexivity.
Qed.
Lemma table_entry : forall (A : Type) n m d (f : nat -> nat -> nat -> A) el j i v,
    entry (table n m d f) el j i = Some v -> v = f el j i.
Proof.
  intros A n m d f el j i v H. unfold entry, table in H. rewrite nth_error_map in H.
  destruct (nth_error (seq 0 n) el) as [a|] eqn:Ea; [|discriminate]. apply nth_seq_inv in Ea. destruct Ea as [_ ->].
  cbn [option_map] in H. rewrite nth_error_map in H.
  destruct (nth_error (seq 0 m) j) as [b|] eqn:Eb; [|discriminate]. apply nth_seq_inv in Eb. destruct Eb as [_ ->].
  cbn [option_map] in H. rewrite nth_error_map in H.
  destruct (nth_error (seq 0 d) i) as [c|] eqn:Ec; [|discriminate]. apply nth_seq_inv in Ec. destruct Ec as [_ ->].
  injection H as <-. reflexivity.
Qed.
Lemma concat_chunks : forall (A : Type) (d0 : A) c d (l : list A), length l = c * d ->
    concat (map (fun j => map (fun i => nth (j * d + i) l d0) (seq 0 d)) (seq 0 c)) = l.
Proof.
  intros A d0 c d. induction c as [|c IH]; intros l H.
  - destruct l; [reflexivity | discriminate].
  - cbn [seq map concat]. rewrite <- seq_shift, map_map. transitivity (firstn d l ++ skipn d l); [|apply firstn_skipn]. f_equal.
    + apply (nth_ext _ _ d0 d0); [rewrite map_length, seq_length, firstn_length; nia|].
      intros i Hi. rewrite map_length, seq_length in Hi. rewrite nth_indep with (d' := nth (0 * d + 0) l d0) by (rewrite map_length, seq_length; exact Hi).
      rewrite (map_nth (fun i => nth (0 * d + i) l d0)), seq_nth by exact Hi. cbn [Nat.mul Nat.add].
      rewrite nth_firstn_lt by exact Hi. reflexivity.
    + rewrite <- (IH (skipn d l)) by (rewrite skipn_length; nia). f_equal. apply map_ext. intros j. apply map_ext. intros i.
      rewrite nth_skipn_add. f_equal. lia.
Qed.

Lemma chosen_by_value : forall names opt (v : list Q), NoDup names -> length v = length names ->
    chosen names opt v (map (value_in names v) opt) v.
Proof.
  intros names opt v N L. split; [exact L|]. intros i n Hi. split; [reflexivity|].
  intros j Hj. rewrite nth_error_map, Hj. cbn [option_map]. unfold value_in.
  destruct (nth_error v i) as [x|] eqn:Ex.
  - rewrite (assign_nth (fun _ => 0%Q) names v i n x N Hi Ex). reflexivity.
  - exfalso. apply nth_error_None in Ex. assert (i < length names) by (apply nth_error_Some; congruence). lia.
Qed.

Lemma decision_exists : forall points dfun k c n s r q,
    transcribable k -> collocation_points (points (k_degree k)) (k_degree k) ->
    create_optimization_problem (collocation_discretize points dfun k) k c = Ok (n, s, r) ->
    sized k (points (k_degree k)) q ->
    exists env, describes k (points (k_degree k)) env s r q.
Proof.
  intros points dfun k c n s r q T Hpts H Z.
  destruct (transcription (fun _ x => x) points dfun k c n s r) as [Es [Sh [HK [Ef _]]]];
    [intros f a b E; exact E | exact T | exact Hpts | exact H|].
  set (pts := points (k_degree k)) in *. assert (Lp : length pts = k_degree k) by apply Hpts.
  set (K := k_elements k) in *.
  set (rq := mkTraj (table K (k_degree k + 1) (n_x k) (fun el j i => poly (q_x q el i) (nth j (0%Q :: pts) 0%Q)))
                    (table K (k_degree k) (n_y k) (fun el j i => poly (q_y q el i) (nth j pts 0%Q)))
                    (table K (control_count k) (n_u k) (fun el j i => nth (j * n_u k + i) (q_u q el) 0%Q))
                    (q_eta q) (map (value_in (m_p (k_model k)) (q_p q)) (o_p_opt (k_problem k)))
                    (map (fun el => map (value_in (m_theta (k_model k)) (q_theta q el)) (o_theta_opt (k_problem k))) (seq 0 K))).
  assert (Sq : collocation_shape k rq).
  { unfold collocation_shape, shaped, rq. cbn [r_x r_y r_u r_eta r_p r_theta]. rewrite map_length.
    split; [apply table_grid|]. split; [apply table_grid|]. split; [apply table_grid|].
    split; [apply (sz_eta _ _ _ Z)|]. split; [reflexivity|]. split; [rewrite map_length, seq_length; reflexivity|].
    apply Forall_map, Forall_forall. intros el _. apply map_length. }
  set (pv := q_p q ++ concat (map (q_theta q) (seq 0 K)) ++ q_x0 q ++ q_last_u q).
  assert (Rt : rows K (n_theta k) (map (q_theta q) (seq 0 K))).
  { split; [rewrite map_length, seq_length; reflexivity|]. apply Forall_map, Forall_forall. intros el _. apply (sz_theta _ _ _ Z). }
  assert (Lpv : length (all_mx s) = length pv).
  { rewrite Es, all_mx_seq, seq_length. unfold pv. rewrite !app_length, (rows_concat_length _ _ _ _ Rt), (sz_p _ _ _ Z), (sz_x0 _ _ _ Z), (sz_last_u _ _ _ Z).
    unfold n_p, n_x, n_u. fold K. lia. }
  assert (N : NoDup (all_mx s ++ flatten r)).
  { rewrite Ef. assert (Ea : all_mx s = seq c (length (all_mx s))) by (rewrite Es, all_mx_seq, seq_length; reflexivity).
    rewrite Ea at 1. rewrite <- seq_app. apply seq_NoDup. }
  set (env := assign (fun _ => 0%Q) (all_mx s ++ flatten r) (pv ++ flatten rq)).
  assert (L2 : length (flatten r) = length (flatten rq)) by (rewrite (flatten_length _ _ _ _ _ _ Sh), (flatten_length _ _ _ _ _ _ Sq); reflexivity).
  assert (E : map env (all_mx s ++ flatten r) = pv ++ flatten rq).
  { apply assign_map; [exact N | rewrite !app_length; lia]. }
  rewrite map_app in E. apply app_inj_len in E; [|rewrite map_length; exact Lpv]. destruct E as [E1 E2].
  rewrite <- flatten_map in E2. apply (flatten_inj _ k _ _ _ _ _ (shaped_map _ _ env _ _ _ _ _ Sh) Sq) in E2.
  rewrite Es in E1. destruct (parameters_read k c (q_p q) (map (q_theta q) (seq 0 K)) (q_x0 q) (q_last_u q) env (sz_p _ _ _ Z) Rt (sz_x0 _ _ _ Z) (sz_last_u _ _ _ Z) E1)
    as [R1 [R2 [R3 R4]]]. cbn [pv_p pv_theta pv_x0 pv_last_u] in R1, R2, R3, R4. rewrite <- Es in R1, R2, R3, R4.
  assert (Ex : map (map (map env)) (r_x r) = r_x rq) by (rewrite <- E2; reflexivity).
  assert (Ey : map (map (map env)) (r_y r) = r_y rq) by (rewrite <- E2; reflexivity).
  assert (Eu : map (map (map env)) (r_u r) = r_u rq) by (rewrite <- E2; reflexivity).
  assert (Ee : map env (r_eta r) = r_eta rq) by (rewrite <- E2; reflexivity).
  assert (Ep : map env (r_p r) = r_p rq) by (rewrite <- E2; reflexivity).
  assert (Et : map (map env) (r_theta r) = r_theta rq) by (rewrite <- E2; reflexivity).
  exists env. constructor.
  - intros el i Hel Hi. split; [apply (sz_x _ _ _ Z)|]. intros j tau v Ht Hv. apply (entry_map _ _ env) in Hv. rewrite Ex in Hv.
    apply table_entry in Hv. rewrite Hv, (nth_error_nth _ _ _ Ht). reflexivity.
  - intros el i Hel Hi. split; [apply (sz_y _ _ _ Z)|]. intros j tau v Ht Hv. apply (entry_map _ _ env) in Hv. rewrite Ey in Hv.
    apply table_entry in Hv. rewrite Hv, (nth_error_nth _ _ _ Ht). reflexivity.
  - intros el l Hl. assert (Hm : nth_error (map (map (map env)) (r_u r)) el = Some (map (map env) l)) by (rewrite nth_error_map, Hl; reflexivity).
    rewrite Eu in Hm. unfold rq, table in Hm. cbn [r_u] in Hm. rewrite nth_error_map in Hm.
    destruct (nth_error (seq 0 K) el) as [a|] eqn:Ea; [|discriminate]. apply nth_seq_inv in Ea. destruct Ea as [_ ->]. injection Hm as Hm.
    rewrite map_concat_rows, <- Hm. symmetry. apply concat_chunks. rewrite (sz_u _ _ _ Z). apply (tr_controls _ T).
  - rewrite R1, Ep. unfold rq. cbn [r_p]. apply chosen_by_value; [apply (p_NoDup k T) | apply (sz_p _ _ _ Z)].
  - intros el g d Hg Hd.
    assert (Eg : map env g = q_theta q el).
    { assert (Hm : nth_error (map (map env) (ps_theta s)) el = Some (map env g)) by (rewrite nth_error_map, Hg; reflexivity).
      rewrite R2, nth_error_map in Hm. destruct (nth_error (seq 0 K) el) as [a|] eqn:Ea; [|discriminate].
      apply nth_seq_inv in Ea. destruct Ea as [_ ->]. injection Hm as <-. reflexivity. }
    assert (Ed : map env d = map (value_in (m_theta (k_model k)) (q_theta q el)) (o_theta_opt (k_problem k))).
    { assert (Hm : nth_error (map (map env) (r_theta r)) el = Some (map env d)) by (rewrite nth_error_map, Hd; reflexivity).
      rewrite Et in Hm. unfold rq in Hm. cbn [r_theta] in Hm. rewrite nth_error_map in Hm.
      destruct (nth_error (seq 0 K) el) as [a|] eqn:Ea; [|discriminate]. apply nth_seq_inv in Ea. destruct Ea as [_ ->].
      injection Hm as <-. reflexivity. }
    rewrite Eg, Ed. apply chosen_by_value; [apply (theta_NoDup k T) | apply (sz_theta _ _ _ Z)].
  - symmetry. exact Ee.
  - symmetry. exact R3.
  - symmetry. exact R4.
Qed.

(** ** What the transcription always refuses *)

Lemma run_all_head : forall (S A O : Type) (f : O -> cmd S A) a l st st',
    run_all f (a :: l) st = (st', Ok tt) -> exists st1 b, f a st = (st1, Ok b).
Proof.
  intros S A O f a l st st' H. simpl in H. destruct (f a st) as [st1 [b|e]] eqn:E; [exists st1, b; reflexivity | discriminate].
Qed.

Lemma run_all_each : forall (S A O : Type) (f : O -> cmd S A) l st st',
    run_all f l st = (st', Ok tt) -> forall a, In a l -> exists st1 st2 b, f a st1 = (st2, Ok b).
Proof.
  intros S A O f l. induction l as [|x l IH]; intros st st' H a Ha; [contradiction|].
  simpl in H. destruct (f x st) as [st1 [b|e]] eqn:E; [|discriminate].
  destruct Ha as [<-|Ha]; [exists st, st1, b; exact E | exact (IH _ _ H a Ha)].
Qed.

Lemma discretize_first : forall points dfun k s n0 c0 n1 c1 r, well_bounded (k_problem k) ->
    collocation_discretize points dfun k s (n0, c0) = ((n1, c1), Ok r) ->
    collocation_shape k r /\ k_elements k <> 0 /\
    exists el z f_der els zs st st', e_x el = nth 0 (r_x r) [] /\ element_results points k el = Ok z /\
      derivative_function points dfun k = Ok f_der /\
      include_element points k (r_u r) (ps_last_u s) f_der (el :: els) (z :: zs) 0 st = (st', Ok tt).
Proof.
  intros points dfun k s n0 c0 n1 c1 r WB H. unfold collocation_discretize in H.
  destruct (cbind_inv _ _ _ _ _ _ _ _ H) as [r' [st1 [Hv H1]]]. clear H.
  rewrite collocation_variables_eq in Hv.
  destruct (variables_spec k (k_elements k) (k_degree k + 1) (k_degree k) n0 c0 WB) as [r2 [v [E [Ev [Es Sh]]]]].
  rewrite E in Hv. injection Hv as <- <-. subst v.
  destruct (cbind_res_inv _ _ _ _ _ _ _ _ H1) as [dt [Hdt H2]]. clear H1.
  destruct (cbind_res_inv _ _ _ _ _ _ _ _ H2) as [bps [Hbps H3]]. clear H2. cbv zeta in H3.
  destruct (breakpoints_ok _ _ Hbps) as [HK Eb].
  destruct (cbind_res_inv _ _ _ _ _ _ _ _ H3) as [f_der [Hder H4]]. clear H3.
  destruct (cbind_res_inv _ _ _ _ _ _ _ _ H4) as [x00 [Hx00 H5]]. clear H4.
  destruct (cbind_inv _ _ _ _ _ _ _ _ H5) as [[] [st2 [Hini H6]]]. clear H5.
  destruct (cbind_res_inv _ _ _ _ _ _ _ _ H6) as [zs [Hzs H7]]. clear H6.
  destruct (cbind_inv _ _ _ _ _ _ _ _ H7) as [[] [st3 [Hels H8]]]. clear H7.
  assert (r2 = r).
  { destruct (cbind_res_inv _ _ _ _ _ _ _ _ H8) as [x_f [Hxf H9]]. clear H8.
    destruct (cbind_inv _ _ _ _ _ _ _ _ H9) as [[] [st4 [Hfin H10]]]. clear H9.
    destruct (cbind_res_inv _ _ _ _ _ _ _ _ H10) as [cost [Hcost H11]]. clear H10.
    destruct (cbind_inv _ _ _ _ _ _ _ _ H11) as [[] [st5 [Hobj H12]]]. clear H11.
    injection H12 as _ E12. exact E12. }
  subst r2. split; [exact Sh|]. split; [exact HK|].
  destruct (k_elements k) as [|K'] eqn:EK; [contradiction|].
  unfold elements in Hzs, Hels. rewrite EK in Hzs, Hels. cbn [seq map] in Hzs, Hels. cbn [res_map] in Hzs.
  destruct (element_results points k _) as [z|] eqn:Ez; [|discriminate].
  destruct (res_map _ _) as [zs'|]; [|discriminate]. injection Hzs as <-.
  unfold crun in Hels. destruct (run_all_head _ _ _ _ _ _ _ _ Hels) as [st' [[] Hi]].
  eexists; exists z, f_der; do 4 eexists. split; [|split; [exact Ez | split; [exact Hder | exact Hi]]]. reflexivity.
Qed.

Lemma constraint_entries_tags : forall points k el es ws l, constraint_entries points k el es ws = Ok l ->
    forall i, i < length es -> exists w, nth_error ws i = Some w /\ (w = "start" \/ w = "end" \/ w = "default")%string.
Proof.
  intros points k el es ws l H i Hi. unfold constraint_entries in H. apply res_map_ok in H.
  destruct (Forall2_nth _ _ _ _ _ i i H) as [y [_ Hy]]; [apply nth_seq; exact Hi|]. cbv beta in Hy.
  destruct (nth_error es i); [|discriminate]. destruct (nth_error ws i) as [w|]; [|discriminate]. exists w. split; [reflexivity|].
  unfold constraint_times in Hy. destruct (String.eqb_spec w "start"); [left; assumption|].
  destruct (String.eqb_spec w "end"); [right; left; assumption|]. destruct (String.eqb_spec w "default"); [right; right; assumption | discriminate].
Qed.

Lemma tags_known : forall points dfun k c n s r, well_bounded (k_problem k) ->
    create_optimization_problem (collocation_discretize points dfun k) k c = Ok (n, s, r) ->
    let known ws i := exists w, nth_error ws i = Some w /\ (w = "start" \/ w = "end" \/ w = "default")%string in
    (forall i, i < length (o_g_ineq (k_problem k)) -> known (o_when_ineq (k_problem k)) i) /\
    (forall i, i < length (o_g_eq (k_problem k)) -> known (o_when_eq (k_problem k)) i).
Proof.
  intros points dfun k c n s r WB H known. destruct (create_inv _ _ _ _ _ _ _ H) as [Es [n0 [c0 [Hd Hn]]]].
  destruct (discretize_first _ _ _ _ _ _ _ _ _ WB Hd) as [_ [_ [el [z [_ [_ [_ [_ [_ [_ [Hz _]]]]]]]]]]].
  unfold element_results in Hz. cbv zeta in Hz.
  destruct (element_function k _ _ (d_ode _)); [|discriminate]. destruct (element_function k _ _ (d_alg _)); [|discriminate].
  destruct (constraint_entries points k el (o_g_ineq _) _) eqn:E1; [|discriminate].
  destruct (constraint_entries points k el (o_g_eq _) _) eqn:E2; [|discriminate].
  split; [exact (constraint_entries_tags _ _ _ _ _ _ E1) | exact (constraint_entries_tags _ _ _ _ _ _ E2)].
Qed.

Lemma rate_needs_parameter : forall points dfun k c n s r, well_bounded (k_problem k) ->
    create_optimization_problem (collocation_discretize points dfun k) k c = Ok (n, s, r) ->
    (exists i lo hi, i < length (m_u (k_model k)) /\ nth_error (o_du_min (k_problem k)) i = Some lo /\
       nth_error (o_du_max (k_problem k)) i = Some hi /\ ~ (lo = NInf /\ hi = PInf)) ->
    k_last_u_par k = true.
Proof.
  intros points dfun k c n s r WB H [i [lo [hi [Hi [Hlo [Hhi Hne]]]]]]. destruct (create_inv _ _ _ _ _ _ _ H) as [Es [n0 [c0 [Hd Hn]]]].
  destruct (discretize_first _ _ _ _ _ _ _ _ _ WB Hd) as [_ [_ [el [z [f_der [els [zs [st [st' [_ [_ [_ Hi0]]]]]]]]]]]].
  destruct (k_last_u_par k) eqn:EL; [reflexivity|exfalso].
  assert (Elu : ps_last_u s = []) by (rewrite Es; unfold parameter_symbols; cbn [ps_last_u]; rewrite EL; reflexivity).
  rewrite Elu in Hi0. unfold include_element in Hi0.
  destruct (cbind_res_inv _ _ _ _ _ _ _ _ Hi0) as [a1 [_ H1]]. clear Hi0.
  destruct (cbind_res_inv _ _ _ _ _ _ _ _ H1) as [a2 [_ H2]]. clear H1.
  destruct (cbind_inv _ _ _ _ _ _ _ _ H2) as [[] [s1 [_ H3]]]. clear H2.
  destruct (cbind_inv _ _ _ _ _ _ _ _ H3) as [[] [s2 [_ H4]]]. clear H3.
  destruct (cbind_inv _ _ _ _ _ _ _ _ H4) as [[] [s3 [_ H5]]]. clear H4.
  destruct (cbind_inv _ _ _ _ _ _ _ _ H5) as [[] [s4 [H6 _]]]. clear H5.
  unfold include_increments in H6. destruct (cbind_res_inv _ _ _ _ _ _ _ _ H6) as [has [Hhas H7]]. clear H6.
  assert (Hf : increment_free (k_problem k) i = Ok false).
  { unfold increment_free. rewrite Hhi, Hlo. destruct hi, lo; try reflexivity. exfalso. apply Hne. split; reflexivity. }
  assert (Hh : has = true).
  { unfold has_delta_u in Hhas. destruct (_ || _)%bool; [discriminate|]. injection Hhas as <-. apply existsb_exists. exists i.
    split; [apply in_seq; split; [lia | exact Hi]|]. unfold increment_free in Hf. rewrite Hhi, Hlo in *. destruct hi, lo; try reflexivity. discriminate. }
  rewrite Hh in H7. destruct (cbind_res_inv _ _ _ _ _ _ _ _ H7) as [now [_ H8]]. clear H7. cbv zeta in H8.
  unfold crun in H8. destruct (run_all_each _ _ _ _ _ _ _ H8 i) as [s5 [s6 [b H9]]]; [apply in_seq; split; [lia | exact Hi]|]. clear H8.
  unfold include_increment in H9. cbv zeta in H9. rewrite Hf in H9.
  destruct (cbind_res_inv _ _ _ _ _ _ _ _ H9) as [free [Efr H10]]. clear H9. injection Efr as <-.
  destruct (cbind_res_inv _ _ _ _ _ _ _ _ H10) as [x1 [_ H11]]. clear H10.
  destruct (cbind_res_inv _ _ _ _ _ _ _ _ H11) as [x2 [_ H12]]. clear H11.
  destruct (cbind_res_inv _ _ _ _ _ _ _ _ H12) as [x3 [E3 H13]]. clear H12. injection E3 as <-.
  destruct (cbind_res_inv _ _ _ _ _ _ _ _ H13) as [x4 [E4 _]]. unfold at_index in E4. destruct i; discriminate.
Qed.

(** With degree 1 the polynomials have one point while the states have two. *)
Lemma degree_one_refused : forall points dfun k c n s r, well_bounded (k_problem k) ->
    k_degree k = 1 -> m_x (k_model k) <> [] ->
    create_optimization_problem (collocation_discretize points dfun k) k c <> Ok (n, s, r).
Proof.
  intros points dfun k c n s r WB D1 Hx H. destruct (create_inv _ _ _ _ _ _ _ H) as [Es [n0 [c0 [Hd Hn]]]].
  destruct (discretize_first _ _ _ _ _ _ _ _ _ WB Hd) as [Sh [HK [el [z [f_der [els [zs [st [st' [Ex [_ [Hder Hi0]]]]]]]]]]]].
  unfold include_element in Hi0.
  destruct (cbind_res_inv _ _ _ _ _ _ _ _ Hi0) as [a1 [E1 H1]]. clear Hi0. injection E1 as <-.
  destruct (cbind_res_inv _ _ _ _ _ _ _ _ H1) as [a2 [E2 H2]]. clear H1. injection E2 as <-.
  destruct (cbind_inv _ _ _ _ _ _ _ _ H2) as [[] [s1 [_ H3]]]. clear H2.
  destruct (cbind_inv _ _ _ _ _ _ _ _ H3) as [[] [s2 [H4 _]]]. clear H3.
  unfold crun in H4. destruct (run_all_each _ _ _ _ _ _ _ H4 1) as [s5 [s6 [b H9]]]; [rewrite D1; left; reflexivity|]. clear H4.
  unfold include_derivative in H9. destruct (cbind_res_inv _ _ _ _ _ _ _ _ H9) as [tau [_ H10]]. clear H9.
  destruct (cbind_res_inv _ _ _ _ _ _ _ _ H10) as [d [Ed _]]. clear H10.
  unfold derivative_function, polynomial, create_variable_polynomial_approximation in Hder. rewrite D1 in Hder. cbn [Nat.eqb] in Hder.
  unfold make_function in Hder. destruct (forallb _ _); [|discriminate]. injection Hder as <-.
  assert (Lx : length (map EVar (vectorize (e_x el))) = 2 * n_x k).
  { rewrite map_length, Ex. destruct Sh as [[L G] _]. rewrite D1 in G. unfold vectorize.
    assert (R : rows 2 (n_x k) (nth 0 (r_x r) [])).
    { rewrite Forall_forall in G. apply G. apply nth_In. rewrite L. lia. }
    apply (rows_concat_length _ _ _ _ R). }
  assert (Lp : length (vec_points (first_free (k_model k)) (n_x k) 1) = n_x k).
  { unfold vec_points. rewrite ?flat_map_concat_map. cbn. rewrite ?app_nil_r, ?map_length, ?seq_length. reflexivity. }
  assert (Hn0 : n_x k <> 0) by (unfold n_x; destruct (m_x (k_model k)); [contradiction | discriminate]).
  unfold call in Ed. cbn [f_in fit_all] in Ed. destruct (fit (length [m_tau (k_model k)]) [EConst tau]); [|discriminate].
  unfold fit in Ed. rewrite Lp in Ed. destruct (Nat.eqb_spec (length (map EVar (vectorize (e_x el)))) (n_x k)) as [E|NE]; [lia|].
  destruct (map EVar (vectorize (e_x el))) as [|e0 [|e1 l]]; simpl in Lx; try lia. discriminate.
Qed.

(** Without states there is no polynomial. *)
Lemma no_states_refused : forall points dfun k c n s r, well_bounded (k_problem k) ->
    k_degree k <> 1 -> m_x (k_model k) = [] ->
    create_optimization_problem (collocation_discretize points dfun k) k c <> Ok (n, s, r).
Proof.
  intros points dfun k c n s r WB D1 Hx H. destruct (create_inv _ _ _ _ _ _ _ H) as [Es [n0 [c0 [Hd Hn]]]].
  destruct (discretize_first _ _ _ _ _ _ _ _ _ WB Hd) as [Sh [HK [el [z [f_der [els [zs [st [st' [Ex [_ [Hder Hi0]]]]]]]]]]]].
  unfold derivative_function, polynomial, create_variable_polynomial_approximation in Hder.
  destruct (Nat.eqb_spec (k_degree k) 1) as [E|_]; [contradiction|]. unfold n_x in Hder. rewrite Hx in Hder. discriminate.
Qed.

(** ** The statements of the properties *)

Lemma w_C58_feasible : forall F points dfun k c n s r,
    respects F -> transcribable k -> collocation_points (points (k_degree k)) (k_degree k) ->
    create_optimization_problem (collocation_discretize points dfun k) k c = Ok (n, s, r) ->
    forall env q, describes k (points (k_degree k)) env s r q ->
      (feasible F env n <-> bounded k env r /\ collocated F k q (points (k_degree k))).
Proof. intros F points dfun k c n s r HF T P H env q D. apply (transcription F points dfun k c n s r HF T P H), D. Qed.

Lemma w_C58_trajectory_unique : forall points dfun k c n s r env q q',
    transcribable k -> collocation_points (points (k_degree k)) (k_degree k) ->
    create_optimization_problem (collocation_discretize points dfun k) k c = Ok (n, s, r) ->
    describes k (points (k_degree k)) env s r q -> describes k (points (k_degree k)) env s r q' ->
    (forall el i t, el < k_elements k -> i < length (m_x (k_model k)) -> (poly (q_x q el i) t == poly (q_x q' el i) t)%Q) /\
    (forall el i t, el < k_elements k -> i < length (m_y (k_model k)) -> (poly (q_y q el i) t == poly (q_y q' el i) t)%Q).
Proof.
  intros points dfun k c n s r env q q' T P H D D'.
  destruct (transcription (fun _ x => x) points dfun k c n s r) as [_ [Sh _]]; [intros f a b E; exact E | exact T | exact P | exact H|].
  exact (trajectory_unique points k env s r q q' P Sh D D').
Qed.

Lemma w_C58_constraint_count : forall points dfun k c n s r,
    transcribable k -> collocation_points (points (k_degree k)) (k_degree k) ->
    create_optimization_problem (collocation_discretize points dfun k) k c = Ok (n, s, r) ->
    length (ng n) = collocation_constraints k.
Proof.
  intros points dfun k c n s r T P H. destruct (trajectory_exists points dfun k c n s r (fun _ => 0%Q) T P H) as [q D].
  destruct (transcription (fun _ x => x) points dfun k c n s r (fun f a b E => E) T P H) as [_ [_ [_ [_ G]]]].
  apply (G (fun _ => 0%Q) q D).
Qed.

Lemma w_C58_variables : forall points dfun k c n s r,
    transcribable k -> collocation_points (points (k_degree k)) (k_degree k) ->
    create_optimization_problem (collocation_discretize points dfun k) k c = Ok (n, s, r) ->
    nx n = flatten r /\ NoDup (all_mx s ++ flatten r).
Proof.
  intros points dfun k c n s r T P H. destruct (trajectory_exists points dfun k c n s r (fun _ => 0%Q) T P H) as [q D].
  destruct (create_inv _ _ _ _ _ _ _ H) as [Es [n0 [c0 [Hd [N1 _]]]]].
  destruct (parameter_lengths k c) as [Hp Hx0]. rewrite <- Es in Hp, Hx0.
  assert (Hth : rows (k_elements k) (n_theta k) (ps_theta s)) by (rewrite Es; apply theta_syms_rows).
  destruct (discretize_ok (fun _ x => x) points dfun k s (fun f a b E => E) T P Hp Hth Hx0 _ _ _ _ _ Hd) as [_ [_ [Ef G]]].
  cbv zeta in G. destruct (G _ _ D) as [l [cost [E _]]]. split.
  - rewrite N1, E. reflexivity.
  - rewrite Ef. assert (Ea : all_mx s = seq c (length (all_mx s))) by (rewrite Es, all_mx_seq, seq_length; reflexivity).
    rewrite Ea at 1. rewrite <- seq_app. apply seq_NoDup.
Qed.

Lemma w_C58_direct_cost : forall F points dfun k c n s r v w,
    respects F -> transcribable k -> collocation_points (points (k_degree k)) (k_degree k) ->
    create_optimization_problem (collocation_discretize points dfun k) k c = Ok (n, s, r) ->
    k_direct k = true -> o_V (k_problem k) = [v] -> o_S (k_problem k) = [w] ->
    exists e, nf n = [e] /\ forall env q, describes k (points (k_degree k)) env s r q ->
      (eval F env e == trajectory_cost F k q v w)%Q.
Proof.
  intros F points dfun k c n s r v w HF T P H Hd EV ES.
  destruct (transcription F points dfun k c n s r HF T P H) as [_ [_ [_ [_ G]]]].
  destruct (trajectory_exists points dfun k c n s r (fun _ => 0%Q) T P H) as [q D].
  destruct (G _ _ D) as [_ [_ [C _]]]. destruct (C Hd v w EV ES) as [e [E _]]. exists e. split; [exact E|].
  intros env q' D'. destruct (G _ _ D') as [_ [_ [C' _]]]. destruct (C' Hd v w EV ES) as [e' [E' V]].
  rewrite E in E'. injection E' as <-. exact V.
Qed.

Lemma w_C58_indirect_cost : forall points dfun k c n s r,
    transcribable k -> collocation_points (points (k_degree k)) (k_degree k) ->
    create_optimization_problem (collocation_discretize points dfun k) k c = Ok (n, s, r) ->
    k_direct k = false -> nf n = [EConst 0%Q].
Proof.
  intros points dfun k c n s r T P H Hd. destruct (trajectory_exists points dfun k c n s r (fun _ => 0%Q) T P H) as [q D].
  destruct (transcription (fun _ x => x) points dfun k c n s r (fun f a b E => E) T P H) as [_ [_ [_ [_ G]]]].
  apply (G (fun _ => 0%Q) q D), Hd.
Qed.

Lemma w_C58_rate_limits : forall points dfun k c n s r, well_bounded (k_problem k) ->
    create_optimization_problem (collocation_discretize points dfun k) k c = Ok (n, s, r) ->
    rate_bounded (k_problem k) -> k_last_u_par k = true.
Proof.
  intros points dfun k c n s r WB H [i [u [lo [hi [Hu [Hl [Hh Hne]]]]]]]. apply (rate_needs_parameter _ _ _ _ _ _ _ WB H).
  exists i, lo, hi. split; [apply nth_error_Some; unfold k_model; congruence|]. split; [exact Hl|]. split; [exact Hh|].
  intros [-> ->]. destruct Hne as [X|X]; apply X; reflexivity.
Qed.

(** ** The example *)

Definition rest_values : list Q :=
  ([1; 0; 1; 1; 1; 1; 1; 0; 0; 0] ++ concat (repeat [1; 0; 0] 6) ++ [2; 2; 2; 2; 0; 0; 0; 1; 1])%Q.
Definition rest_env (v : sym) : Q := nth (v - 1000) rest_values 0%Q.

Lemma nodup_ok : forall l, nodup Nat.eq_dec l = l -> NoDup l.
Proof. intros l <-. apply NoDup_nodup. Qed.
Definition limited_k : method := Eval vm_compute in
  match limited_cart as x return (match x with Ok _ => method | Raise _ => unit end) with Ok k => k | Raise _ => tt end.
Lemma limited_cart_is : limited_cart = Ok limited_k.
Proof. vm_compute. reflexivity. Qed.

Lemma in_order_ok : forall lo hi, forallb (fun p => match p with
      | (NInf, _) | (_, PInf) => true | (Fin a, Fin b) => Qle_bool a b | _ => false end) (combine lo hi) = true -> in_order lo hi.
Proof.
  intros lo hi H i a b Ha Hb. rewrite forallb_forall in H. specialize (H (a, b)). 
  assert (I : In (a, b) (combine lo hi)).
  { revert hi i Ha Hb H. induction lo as [|l lo IH]; intros [|h hi] [|i] Ha Hb H; simpl in *; try discriminate.
    - injection Ha as ->. injection Hb as ->. left. reflexivity.
    - right. apply (IH hi i Ha Hb). intros X. apply H. right. exact X. }
  specialize (H I). destruct a, b; simpl in *; try exact Logic.I; try discriminate. apply Qle_bool_iff, H.
Qed.

Lemma limited_cart_transcribable : transcribable limited_k.
Proof.
  constructor.
  - vm_compute. lia.
  - vm_compute. reflexivity.
  - split; [unfold aligned; vm_compute; repeat split|].
    repeat (split; [apply in_order_ok; vm_compute; reflexivity|]). apply in_order_ok; vm_compute; reflexivity.
  - apply nodup_ok. vm_compute. reflexivity.
  - split; [|split].
    + split; intros a Ha; vm_compute in Ha |- *; tauto.
    + apply nodup_ok. vm_compute. reflexivity.
    + apply nodup_ok. vm_compute. reflexivity.
  - split; [reflexivity|]. intros v oe H. vm_compute in H.
    repeat (destruct H as [H|H]; [injection H as _ <-; eexists; reflexivity|]). destruct H.
  - reflexivity.
  - reflexivity.
  - discriminate.
Qed.

Lemma radau_two_points : collocation_points (radau_two (k_degree limited_k)) (k_degree limited_k).
Proof.
  vm_compute. repeat split; repeat constructor.
Qed.

Definition limited_nlp : nlp * par_syms * traj sym := Eval vm_compute in
  match create_optimization_problem (collocation_discretize radau_two (fun _ e => e) limited_k) limited_k 1000 as x
        return (match x with Ok _ => (nlp * par_syms * traj sym)%type | Raise _ => unit end) with Ok k => k | Raise _ => tt end.
Lemma limited_nlp_is :
  create_optimization_problem (collocation_discretize radau_two (fun _ e => e) limited_k) limited_k 1000 =
  Ok (fst (fst limited_nlp), snd (fst limited_nlp), snd limited_nlp).
Proof. vm_compute. reflexivity. Qed.

Lemma rest_describes : describes limited_k (radau_two (k_degree limited_k)) rest_env (snd (fst limited_nlp)) (snd limited_nlp) at_rest.
Proof.
  constructor.
  - intros el i Hel Hi. vm_compute in Hel, Hi.
    assert (E : el = 0 \/ el = 1) by lia. assert (I : i = 0 \/ i = 1 \/ i = 2) by lia. clear Hel Hi.
    destruct E as [-> | ->]; destruct I as [-> | [-> | ->]]; (split; [vm_compute; lia|]);
      intros [|[|[|j]]] tau v Ht Hv; vm_compute in Ht, Hv; try discriminate;
      try (injection Ht as <-; injection Hv as <-; vm_compute; reflexivity); destruct j; discriminate.
  - intros el i Hel Hi. vm_compute in Hel, Hi.
    assert (E : el = 0 \/ el = 1) by lia. assert (I : i = 0) by lia. clear Hel Hi. subst i.
    destruct E as [-> | ->]; (split; [vm_compute; lia|]);
      intros [|[|j]] tau v Ht Hv; vm_compute in Ht, Hv; try discriminate;
      try (injection Ht as <-; injection Hv as <-; vm_compute; reflexivity); destruct j; discriminate.
  - intros [|[|el]] l Hl; vm_compute in Hl; try (injection Hl as <-; vm_compute; reflexivity). destruct el; discriminate.
  - split; [reflexivity|]. intros [|[|i]] n Hn; vm_compute in Hn; try (destruct i; discriminate); injection Hn as <-.
    + split; [reflexivity|]. intros [|j] Hj; vm_compute in Hj; [discriminate | destruct j; discriminate].
    + split; [intros H; exfalso; apply H; vm_compute; left; reflexivity|].
      intros [|j] Hj; vm_compute in Hj; [reflexivity | destruct j; discriminate].
  - intros [|[|el]] g d Hg Hd; vm_compute in Hg, Hd; try (destruct el; discriminate); injection Hg as <-; injection Hd as <-;
      (split; [reflexivity|]); intros [|[|i]] n Hn; vm_compute in Hn; try (destruct i; discriminate); injection Hn as <-;
      (split; [intros H; try reflexivity; exfalso; apply H; vm_compute; left; reflexivity |
               intros [|j] Hj; vm_compute in Hj; [try discriminate; reflexivity | destruct j; discriminate]]).
  - reflexivity.
  - reflexivity.
  - reflexivity.
Qed.

Ltac no_entry H := exfalso; vm_compute in H;
  match goal with n : nat |- _ => destruct n; vm_compute in H; discriminate end.

Lemma rest_bounded : bounded limited_k rest_env (snd limited_nlp).
Proof.
  constructor.
  - intros [|[|el]] [|[|[|j]]] [|[|[|i]]] v lo hi Hv Hl Hh; try (no_entry Hv); vm_compute in Hv, Hl, Hh;
      injection Hv as <-; injection Hl as <-; injection Hh as <-; (split; vm_compute; try exact I; discriminate).
  - intros [|[|el]] [|[|j]] [|i] v lo hi Hv Hl Hh; try (no_entry Hv); vm_compute in Hv, Hl, Hh;
      injection Hv as <-; injection Hl as <-; injection Hh as <-; (split; vm_compute; try exact I; discriminate).
  - intros [|[|el]] [|j] [|i] v lo hi Hv Hl Hh; try (no_entry Hv); vm_compute in Hv, Hl, Hh;
      injection Hv as <-; injection Hl as <-; injection Hh as <-; (split; vm_compute; try exact I; discriminate).
  - intros [|i] v lo hi Hv Hl Hh; try (no_entry Hv); vm_compute in Hv, Hl, Hh;
      injection Hv as <-; injection Hl as <-; injection Hh as <-; (split; vm_compute; try exact I; discriminate).
  - intros [|[|el]] [|i] v lo hi Hv Hl Hh; try (no_entry Hv); vm_compute in Hv, Hl, Hh;
      injection Hv as <-; injection Hl as <-; injection Hh as <-; (split; vm_compute; try exact I; discriminate).
Qed.

Ltac one_of H := repeat (destruct H as [<-|H]; [vm_compute; try reflexivity; discriminate|]); contradiction.

Lemma rest_collocated : collocated (fun _ x => x) limited_k at_rest (radau_two (k_degree limited_k)).
Proof.
  assert (Two : forall el, el < k_elements limited_k -> el = 0 \/ el = 1) by (intros el H; vm_compute in H; lia).
  constructor.
  - intros e He. vm_compute in He. one_of He.
  - intros el i Hel Hi. vm_compute in Hel, Hi. replace el with 0 by lia. assert (C : i = 0 \/ i = 1 \/ i = 2) by lia.
    destruct C as [-> | [-> | ->]]; vm_compute; reflexivity.
  - intros el tau i v e Hel Ht He. destruct (Two _ Hel) as [-> | ->]; destruct Ht as [<-|[<-|[]]];
      destruct i as [|[|[|i]]]; vm_compute in He; try (injection He as <- <-; vm_compute; reflexivity); destruct i; discriminate.
  - intros el tau Hel Ht _ e He. vm_compute in He. destruct (Two _ Hel) as [-> | ->]; destruct Ht as [<-|[<-|[]]]; one_of He.
  - intros el i lo hi Hel Hl Hh. destruct i as [|i]; [|vm_compute in Hl; destruct i; discriminate]. vm_compute in Hl, Hh.
    injection Hl as <-. injection Hh as <-. destruct (Two _ Hel) as [-> | ->]; split; vm_compute; discriminate.
  - intros el j g w tau Hel Hg Hw Ht. destruct j as [|[|j]]; vm_compute in Hg, Hw; try (destruct j; discriminate);
      injection Hg as <-; injection Hw as <-; vm_compute in Ht;
      (destruct (Two _ Hel) as [-> | ->]); one_of Ht.
  - intros el j g w tau Hel Hg. vm_compute in Hg. destruct j; discriminate.
  - intros e He. vm_compute in He. one_of He.
  - intros e He. vm_compute in He. contradiction.
Qed.

Lemma w_limited_cart_transcribed : exists k n s r env,
    limited_cart = Ok k /\ transcribable k /\ collocation_points (radau_two (k_degree k)) (k_degree k) /\
    create_optimization_problem (collocation_discretize radau_two (fun _ e => e) k) k 1000 = Ok (n, s, r) /\
    length (nx n) = 27 /\ length (ng n) = 31 /\
    describes k (radau_two (k_degree k)) env s r at_rest /\
    collocated (fun _ x => x) k at_rest (radau_two (k_degree k)) /\
    bounded k env r /\ feasible (fun _ x => x) env n.
Proof.
  exists limited_k, (fst (fst limited_nlp)), (snd (fst limited_nlp)), (snd limited_nlp), rest_env.
  split; [exact limited_cart_is|]. split; [exact limited_cart_transcribable|]. split; [exact radau_two_points|].
  split; [exact limited_nlp_is|]. split; [reflexivity|]. split; [reflexivity|]. split; [exact rest_describes|].
  split; [exact rest_collocated|]. split; [exact rest_bounded|].
  apply (w_C58_feasible (fun _ x => x) radau_two (fun _ e => e) limited_k 1000 _ _ _ (fun f a b E => E)
           limited_cart_transcribable radau_two_points limited_nlp_is _ _ rest_describes).
  split; [exact rest_bounded | exact rest_collocated].
Qed.

Lemma w_limited_cart_rates : exists k, limited_cart = Ok k /\ well_bounded (k_problem k) /\ rate_bounded (k_problem k) /\
    k_last_u_par k = true /\ o_when_ineq (k_problem k) = ["default"; "end"]%string /\ m_x (k_model k) <> [].
Proof.
  exists limited_k. split; [exact limited_cart_is|]. split; [apply limited_cart_transcribable|].
  split; [exists 0, 30, (Fin (-1#2)%Q), (Fin (1#2)%Q); repeat split; left; discriminate|].
  split; [reflexivity|]. split; [reflexivity | discriminate].
Qed.

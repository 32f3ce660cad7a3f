(** Proofs about the transcription by collocation. *)
From Coq Require Import String Sorted SetoidList Lqa.
From Verif Require Import Base BaseProofs UtilModel UtilProofs ExprModel ExprProofs NlpModel NlpSpec NlpProofs SysModel
  SysSpec SysProofs SimModel OcpModel OcpSpec OcpMoreProofs LagModel LagSpec LagProofs DiscModel DiscSpec DiscProofs
  ColSpec ColPolyProofs ColEvalProofs.
Local Open Scope list_scope.
Local Open Scope nat_scope.

(** ** Values put into vectors *)

Lemma set_nth_length : forall (A : Type) (l : list A) i a, length (set_nth l i a) = length l.
Proof. intros A l. induction l as [|b l IH]; intros [|i] a; simpl; try reflexivity. rewrite IH. reflexivity. Qed.
Lemma set_nth_same : forall (A : Type) (l : list A) i a, i < length l -> nth_error (set_nth l i a) i = Some a.
Proof. intros A l. induction l as [|b l IH]; intros [|i] a H; simpl in *; try lia; [reflexivity|]. apply IH. lia. Qed.
Lemma set_nth_other : forall (A : Type) (l : list A) i j a, i <> j -> nth_error (set_nth l i a) j = nth_error l j.
Proof.
  intros A l. induction l as [|b l IH]; intros [|i] [|j] a H; simpl; try reflexivity; try congruence.
  apply IH. congruence.
Qed.
Lemma put_values_length : forall idx p vs, length (put_values p idx vs) = length p.
Proof.
  unfold put_values. induction idx as [|i idx IH]; intros p [|v vs]; try reflexivity. cbn [combine fold_left fst snd].
  rewrite IH. apply set_nth_length.
Qed.
Lemma put_values_other : forall idx p vs i, ~ In i idx -> nth_error (put_values p idx vs) i = nth_error p i.
Proof.
  unfold put_values. induction idx as [|j idx IH]; intros p [|v vs] i H; try reflexivity. cbn [combine fold_left fst snd].
  rewrite IH by (intros X; apply H; right; exact X). apply set_nth_other. intros ->. apply H. left; reflexivity.
Qed.
Lemma put_values_same : forall idx p vs i j v, NoDup idx -> nth_error idx j = Some i -> nth_error vs j = Some v ->
    i < length p -> nth_error (put_values p idx vs) i = Some v.
Proof.
  unfold put_values. induction idx as [|a idx IH]; intros p [|b vs] i j v N Hi Hv L; try (destruct j; discriminate).
  inversion N as [|? ? Ha N']; subst. cbn [combine fold_left fst snd]. destruct j as [|j].
  - injection Hi as ->. injection Hv as ->.
    pose proof (put_values_other idx (set_nth p i v) vs i Ha) as E. unfold put_values in E. rewrite E.
    apply set_nth_same, L.
  - apply (IH _ _ _ j); try assumption. rewrite set_nth_length. exact L.
Qed.

Lemma chosen_vals : forall F env names opt idx given decided v,
    NoDup names -> NoDup opt -> map (nth_error names) idx = map Some opt ->
    length given = length names -> length decided = length opt ->
    chosen names opt (map env given) (map env decided) v ->
    vals F env (put_values (map EVar given) idx (map EVar decided)) v.
Proof.
  intros F env names opt idx given decided v Nn N Hidx Lg Ld [Lv Hc].
  assert (Lidx : length idx = length opt) by (apply (f_equal (@length _)) in Hidx; rewrite !map_length in Hidx; exact Hidx).
  assert (Nidx : NoDup idx).
  { assert (Nm : NoDup (map (nth_error names) idx)).
    { rewrite Hidx. apply FinFun.Injective_map_NoDup; [intros a b E; injection E as ->; reflexivity | exact N]. }
    exact (NoDup_map_inv _ _ Nm). }
  assert (Hj : forall j i, nth_error idx j = Some i -> exists n, nth_error opt j = Some n /\ nth_error names i = Some n).
  { intros j i H. assert (E : nth_error (map (nth_error names) idx) j = Some (nth_error names i)) by (rewrite nth_error_map, H; reflexivity).
    rewrite Hidx, nth_error_map in E. destruct (nth_error opt j) as [n|]; [|discriminate]. exists n.
    split; [reflexivity|]. injection E as E. symmetry; exact E. }
  apply vals_intro; [rewrite put_values_length, map_length; lia|].
  intros i e x He Hx.
  assert (Hi : i < length names) by (rewrite <- Lv; apply nth_error_Some; congruence).
  destruct (nth_error names i) as [n|] eqn:En; [|apply nth_error_None in En; lia].
  destruct (Hc i n En) as [Hc1 Hc2].
  destruct (in_dec Nat.eq_dec i idx) as [Hin|Hin].
  - apply In_nth_error in Hin. destruct Hin as [j Hji]. destruct (Hj j i Hji) as [n' [Ho En']].
    assert (n' = n) by congruence. subst n'.
    assert (Hd : exists d, nth_error decided j = Some d).
    { destruct (nth_error decided j) eqn:E; [eexists; reflexivity|]. apply nth_error_None in E.
      assert (j < length opt) by (apply nth_error_Some; congruence). lia. }
    destruct Hd as [d Hd].
    rewrite (put_values_same idx _ _ i j (EVar d) Nidx Hji) in He;
      [|rewrite nth_error_map, Hd; reflexivity | rewrite map_length; lia].
    injection He as <-. rewrite (Hc2 j Ho), nth_error_map, Hd in Hx. injection Hx as <-. reflexivity.
  - rewrite put_values_other in He by exact Hin.
    assert (Hn : ~ In n opt).
    { intros Ho. apply In_nth_error in Ho. destruct Ho as [j Ho].
      destruct (nth_error idx j) as [i'|] eqn:Ei.
      - destruct (Hj j i' Ei) as [n' [Ho' En']]. assert (n' = n) by congruence. subst n'.
        apply Hin. apply nth_error_In in Ei.
        assert (i' = i); [|congruence].
        rewrite NoDup_nth_error in Nn. apply Nn; [apply nth_error_Some; congruence | congruence].
      - apply nth_error_None in Ei. assert (j < length opt) by (apply nth_error_Some; congruence). lia. }
    rewrite (Hc1 Hn), nth_error_map in Hx. rewrite nth_error_map in He.
    destruct (nth_error given i) as [g|]; [|discriminate]. injection He as <-. injection Hx as <-. reflexivity.
Qed.

Lemma chosen_exists : forall F env names opt idx given decided,
    NoDup names -> NoDup opt -> map (nth_error names) idx = map Some opt ->
    length given = length names -> length decided = length opt ->
    chosen names opt (map env given) (map env decided)
      (map (eval F env) (put_values (map EVar given) idx (map EVar decided))).
Proof.
  intros F env names opt idx given decided Nn N Hidx Lg Ld.
  assert (Lidx : length idx = length opt) by (apply (f_equal (@length _)) in Hidx; rewrite !map_length in Hidx; exact Hidx).
  assert (Nidx : NoDup idx).
  { assert (Nm : NoDup (map (nth_error names) idx)).
    { rewrite Hidx. apply FinFun.Injective_map_NoDup; [intros a b E; injection E as ->; reflexivity | exact N]. }
    exact (NoDup_map_inv _ _ Nm). }
  split; [rewrite map_length, put_values_length, map_length; exact Lg|].
  intros i n Hi. split.
  - intros Hn. rewrite nth_error_map, put_values_other.
    + rewrite !nth_error_map. destruct (nth_error given i); reflexivity.
    + intros Hin. apply Hn. apply In_nth_error in Hin. destruct Hin as [j Hj].
      assert (E : nth_error (map (nth_error names) idx) j = Some (Some n)) by (rewrite nth_error_map, Hj; simpl; congruence).
      rewrite Hidx, nth_error_map in E. destruct (nth_error opt j) as [n'|] eqn:En; [|discriminate].
      injection E as ->. apply (nth_error_In _ _ En).
  - intros j Hj. assert (Hji : nth_error idx j = Some i).
    { assert (E : nth_error (map (nth_error names) idx) j = Some (Some n)) by (rewrite Hidx, nth_error_map, Hj; reflexivity).
      rewrite nth_error_map in E. destruct (nth_error idx j) as [i'|] eqn:Ei; [|discriminate]. injection E as E. f_equal.
      rewrite NoDup_nth_error in Nn. apply Nn; [apply nth_error_Some; congruence | congruence]. }
    assert (Hd : exists d, nth_error decided j = Some d).
    { destruct (nth_error decided j) eqn:E; [eexists; reflexivity|]. apply nth_error_None in E.
      assert (j < length opt) by (apply nth_error_Some; congruence). lia. }
    destruct Hd as [d Hd]. rewrite !nth_error_map, Hd.
    rewrite (put_values_same idx _ _ i j (EVar d) Nidx Hji); [reflexivity | rewrite nth_error_map, Hd; reflexivity|].
    rewrite map_length, Lg. apply nth_error_Some. congruence.
Qed.

(** ** The local polynomials *)

Section Polynomials.
  Variables (F : nat -> Q -> Q) (points : nat -> list Q) (dfun : nat -> expr -> expr) (k : method).
  Hypothesis HF : respects F.
  Hypothesis Hdeg : 2 <= k_degree k.
  Hypothesis Hpts : collocation_points (points (k_degree k)) (k_degree k).

  Lemma points_length : length (points (k_degree k)) = k_degree k.
  Proof. apply Hpts. Qed.
  Lemma points_distinct : forall z, distinct (interpolation_points points (k_degree k) z).
  Proof.
    destruct Hpts as [_ [H _]]. intros [|]; cbn [interpolation_points].
    - apply sorted_distinct, H.
    - apply distinct_tail with (r := 0%Q). apply sorted_distinct, H.
  Qed.
  Lemma interpolation_length : forall z, length (interpolation_points points (k_degree k) z) = if z then k_degree k + 1 else k_degree k.
  Proof. intros [|]; cbn [interpolation_points length]; rewrite points_length; lia. Qed.
  Lemma interpolation_nonempty : forall z, interpolation_points points (k_degree k) z <> [].
  Proof. intros z E. apply (f_equal (@length _)) in E. rewrite interpolation_length in E. destruct z; simpl in E; lia. Qed.

  Lemma polynomial_ok : forall size z pol par, polynomial points k size z = Ok (pol, par) ->
      let pz := interpolation_points points (k_degree k) z in
      let first := first_free (k_model k) in
      pol = combination (basis_over (m_tau (k_model k)) pz) first size (length pz) (length pz) /\
      par = vec_points first size (length pz) /\ (z = true -> size <> 0).
  Proof.
    intros size z pol par H pz first. unfold polynomial, create_variable_polynomial_approximation in H.
    destruct (Nat.eqb_spec (k_degree k) 1) as [E|_]; [lia|]. unfold pz. rewrite interpolation_length. destruct z.
    - destruct (Nat.eqb_spec size 0) as [E|E]; [discriminate|].
      rewrite (method_basis_zero points _ _ points_length) in H. injection H as <- <-. tauto.
    - rewrite (method_basis_one points _ _ points_length) in H. injection H as <- <-.
      split; [reflexivity|]. split; [reflexivity | discriminate].
  Qed.

  Section Values.
    Variables (env : sym -> Q) (size : nat) (z : bool) (blk : list (list sym)) (c : nat -> list Q).
    Let pz := interpolation_points points (k_degree k) z.
    Hypothesis Hblk : rows (length pz) size blk.
    Hypothesis Hc : forall i, i < size -> length (c i) <= length pz /\
      forall j tau v, nth_error pz j = Some tau -> entry2 blk j i = Some v -> (poly (c i) tau == env v)%Q.

    Lemma block_value : forall t tv i j first,
        i < size -> j < length pz -> t < first ->
        (assign (fun _ => 0%Q) (t :: vec_points first size (length pz)) (tv :: map env (concat blk))
           (point_sym first (length pz) i j) == poly (c i) (nth j pz 0))%Q.
    Proof.
      intros t tv i j first Hi Hj Ht.
      assert (Hn : nth_error (vec_points first size (length pz)) (j * size + i) = Some (point_sym first (length pz) i j)).
      { rewrite (nth_error_nth' _ 0) by (rewrite vec_points_length; nia). rewrite vec_points_nth by assumption. reflexivity. }
      assert (He : exists v, entry2 blk j i = Some v).
      { destruct Hblk as [Hl Hr]. unfold entry2. destruct (nth_error blk j) as [w|] eqn:Ew; [|apply nth_error_None in Ew; lia].
        rewrite Forall_forall in Hr. specialize (Hr w (nth_error_In _ _ Ew)).
        destruct (nth_error w i) as [v|] eqn:Ev; [eexists; reflexivity | apply nth_error_None in Ev; lia]. }
      destruct He as [v He]. pose proof (rows_entry _ _ _ _ _ _ _ Hblk He) as Hv.
      rewrite (assign_nth _ _ _ (S (j * size + i)) (point_sym first (length pz) i j) (env v)).
      - destruct (Hc i Hi) as [_ H]. symmetry. apply (H j); [|exact He]. rewrite (nth_error_nth' _ 0%Q) by exact Hj. reflexivity.
      - constructor; [|apply vec_points_NoDup]. intros Hin. apply In_nth_error in Hin. destruct Hin as [a Ha].
        unfold vec_points in Ha. apply nth_error_In, in_flat_map in Ha. destruct Ha as [b [_ Ha]].
        apply in_map_iff in Ha. destruct Ha as [d [Ha _]]. unfold point_sym in Ha. lia.
      - exact Hn.
      - cbn [nth_error]. rewrite nth_error_map, Hv. reflexivity.
    Qed.

    Lemma params_NoDup : forall t first, t < first -> NoDup (concat [[t]; vec_points first size (length pz)]).
    Proof.
      intros t first H. cbn [concat app]. rewrite app_nil_r. constructor; [|apply vec_points_NoDup]. unfold vec_points. intros Ha.
      apply in_flat_map in Ha. destruct Ha as [b [_ Ha]]. apply in_map_iff in Ha. destruct Ha as [d [Ha _]].
      unfold point_sym in Ha. lia.
    Qed.
    Lemma params_vals : forall t tv first, t < first ->
        Forall2 (fun i a => vals F env a (map (assign (fun _ => 0%Q) (t :: vec_points first size (length pz)) (tv :: map env (concat blk))) i))
          [[t]; vec_points first size (length pz)] [[EConst tv]; map EVar (vectorize blk)].
    Proof.
      intros t tv first Ht. pose proof (params_NoDup t first Ht) as N. cbn [concat app] in N. rewrite app_nil_r in N.
      set (par := vec_points first size (length pz)) in *.
      assert (L : length (t :: par) = length (tv :: map env (concat blk))).
      { cbn [length]. unfold par. rewrite vec_points_length, map_length, (rows_concat_length _ _ _ _ Hblk). f_equal. lia. }
      pose proof (assign_map (fun _ => 0%Q) _ _ N L) as E. set (rho := assign _ _ _) in *. cbn [map] in E. injection E as E1 E2.
      constructor; [|constructor; [|constructor]].
      - cbn [map]. rewrite E1. constructor; [reflexivity | constructor].
      - rewrite E2. apply vals_vars.
    Qed.

    Lemma combination_vals : forall first t tv tau rho x (g : expr -> expr) (h : list Q -> list Q),
        m_tau (k_model k) < first -> t < first ->
        rho = assign (fun _ => 0%Q) (t :: vec_points first size (length pz)) (tv :: map env (concat blk)) ->
        (forall e, In e (combination (basis_over (m_tau (k_model k)) pz) first size (length pz) (length pz)) ->
           forall v, (eval F (upd rho (m_tau (k_model k)) tau) e == poly v tau /\
                      eval F (upd rho (m_tau (k_model k)) tau) (diff dfun (m_tau (k_model k)) e) == poly (derivative v) tau)%Q ->
           (eval F rho (g e) == poly (h v) tau)%Q) ->
        vals F env x (map (eval F rho) (map g (combination (basis_over (m_tau (k_model k)) pz) first size (length pz) (length pz)))) ->
        vals F env x (map (fun i => poly (h (c i)) tau) (seq 0 size)).
    Proof.
      intros first t tv tau rho x g h Htau Ht Hrho Hg V. eapply vals_Qeq; [exact V|]. rewrite map_map.
      assert (Hn : length pz <> 0) by (pose proof (interpolation_nonempty z) as H; fold pz in H; destruct pz; [contradiction | discriminate]).
      assert (L : length (combination (basis_over (m_tau (k_model k)) pz) first size (length pz) (length pz)) = size).
      { apply combination_length, Hn. }
      apply Forall2_nth_intro; [rewrite !map_length, seq_length; exact L|].
      intros i a b Ha Hb. rewrite nth_error_map in Ha, Hb.
      destruct (nth_error (combination _ _ _ _ _) i) as [e|] eqn:Ee; [|discriminate]. injection Ha as <-.
      assert (Hi : i < size) by (rewrite <- L; apply nth_error_Some; congruence).
      rewrite (nth_error_nth' _ 0) in Hb by (rewrite seq_length; exact Hi). rewrite seq_nth in Hb by exact Hi. injection Hb as <-.
      cbn [Nat.add]. apply Hg; [apply (nth_error_In _ _ Ee)|].
      pose proof (combination_polynomial F dfun (m_tau (k_model k)) pz first size (c i) i
                    (upd rho (m_tau (k_model k)) tau) (points_distinct z) (interpolation_nonempty z)
                    (proj1 (Hc i Hi)) Hi Htau) as P.
      cbv zeta in P. rewrite (nth_error_nth _ _ _ Ee) in P.
      assert (Eu : upd rho (m_tau (k_model k)) tau (m_tau (k_model k)) = tau) by (unfold upd; rewrite Nat.eqb_refl; reflexivity).
      rewrite Eu in P. apply P.
      intros j Hj. rewrite upd_other by (unfold point_sym; lia). subst rho. apply block_value; assumption.
    Qed.

    Lemma polynomial_vals : forall a b f t tau x,
        polynomial_function points k size z a b = Ok f ->
        call f [[EConst t]; map EVar (vectorize blk)] = Ok x ->
        ((t - a) / (b - a) == tau)%Q ->
        vals F env x (map (fun i => poly (c i) tau) (seq 0 size)).
    Proof.
      intros a b f t tau x Hf Hx Ht. unfold polynomial_function in Hf.
      destruct (polynomial points k size z) as [[pol par]|e] eqn:Ep; [|discriminate].
      destruct (polynomial_ok _ _ _ _ Ep) as [-> [-> _]]. fold pz in Hf.
      set (first := first_free (k_model k)) in *.
      assert (Lt : m_t (k_model k) < first) by (unfold first, first_free; lia).
      assert (Ltau : m_tau (k_model k) < first) by (unfold first, first_free; lia).
      pose proof (call_blocks F env _ _ _ _ _ _ HF (params_NoDup _ _ Lt) Hf Hx (params_vals _ t first Lt)) as V.
      refine (combination_vals first _ t tau _ x _ (fun v => v) Ltau Lt eq_refl _ V).
      intros e He v [H _]. rewrite tau_to_time_value, <- H. apply eval_ext_Qeq; [exact HF|].
      intros s _. unfold upd. destruct (Nat.eqb s (m_tau (k_model k))); [|reflexivity].
      cbn [assign]. destruct (Nat.eq_dec (m_t (k_model k)) (m_t (k_model k))); [exact Ht | congruence].
    Qed.
  End Values.

  Lemma derivative_vals : forall env blk c f tau x,
      rows (k_degree k + 1) (n_x k) blk ->
      (forall i, i < n_x k -> length (c i) <= S (length (points (k_degree k))) /\
        forall j t v, nth_error (0%Q :: points (k_degree k)) j = Some t -> entry2 blk j i = Some v -> (poly (c i) t == env v)%Q) ->
      derivative_function points dfun k = Ok f ->
      call f [[EConst tau]; map EVar (vectorize blk)] = Ok x ->
      vals F env x (map (fun i => poly (derivative (c i)) tau) (seq 0 (n_x k))).
  Proof.
    intros env blk c f tau x Hblk Hc Hf Hx. unfold derivative_function in Hf.
    destruct (polynomial points k (n_x k) true) as [[pol par]|e] eqn:Ep; [|discriminate].
    destruct (polynomial_ok _ _ _ _ Ep) as [-> [-> _]].
    set (first := first_free (k_model k)) in *.
    assert (Ltau : m_tau (k_model k) < first) by (unfold first, first_free; lia).
    assert (Hblk' : rows (length (interpolation_points points (k_degree k) true)) (n_x k) blk) by (rewrite interpolation_length; exact Hblk).
    pose proof (call_blocks F env _ _ _ _ _ _ HF (params_NoDup (n_x k) true _ _ Ltau) Hf Hx
                  (params_vals env (n_x k) true blk Hblk' _ tau first Ltau)) as V.
    refine (combination_vals env (n_x k) true blk c Hblk' Hc first _ tau tau _ x _ derivative Ltau Ltau eq_refl _ V).
    intros e He v [_ H]. rewrite <- H. apply eval_ext_Qeq; [exact HF|].
    intros s _. unfold upd. destruct (Nat.eqb_spec s (m_tau (k_model k))) as [->|]; [|reflexivity].
    cbn [assign]. destruct (Nat.eq_dec (m_tau (k_model k)) (m_tau (k_model k))); [reflexivity | congruence].
  Qed.
End Polynomials.

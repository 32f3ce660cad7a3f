(** Proofs about access to optimisation results and about their creation. *)
From Coq Require Import String Lia.
From Verif Require Import Base BaseProofs UtilModel UtilProofs ExprModel SysModel OcpModel OcpSpec OcpMoreProofs DataModel DataSpec DataProofs
  DiscModel DiscSpec DiscProofs ColProofs ResModel ResSpec ResProofs.
Local Open Scope list_scope.
Local Open Scope nat_scope.

(** ** Access *)

Lemma res_map_each : forall (A B : Type) (f : A -> res B) (R : A -> B -> Prop) l,
    Forall (fun a => exists b, f a = Ok b /\ R a b) l -> exists l', res_map f l = Ok l' /\ Forall2 R l l'.
Proof.
  intros A B f R l H. induction H as [|a l [b [E Rb]] H [l' [El Rl]]]; [exists []; split; [reflexivity | constructor]|].
  exists (b :: l'). cbn [res_map]. rewrite E, El. split; [reflexivity | constructor; assumption].
Qed.
Lemma pick_rows : forall idx (v : list Q), Forall (fun i => i < length v) idx -> exists w, pick v idx = Ok w /\ rows_of idx v w.
Proof.
  intros idx v H. induction H as [|i idx Hi H [w [E R]]]; [exists []; split; reflexivity|].
  unfold pick in *. cbn [fold_right]. destruct (nth_error v i) as [a|] eqn:Ea; [|apply nth_error_None in Ea; lia].
  exists (a :: w). rewrite E. split; [reflexivity|]. unfold rows_of in *. cbn [map]. rewrite Ea, R. reflexivity.
Qed.
Lemma pick_outside : forall idx (v : list Q) i, In i idx -> length v <= i -> pick v idx = Raise CasadiError.
Proof.
  intros idx v i. induction idx as [|j idx IH]; intros Hi L; [destruct Hi|]. unfold pick in *. cbn [fold_right].
  destruct Hi as [->|Hi].
  - replace (nth_error v i) with (@None Q) by (symmetry; apply nth_error_None; exact L).
    assert (X : forall l, fold_right (fun i acc => match nth_error v i, acc with
                           | Some a, Ok l => Ok (a :: l)
                           | None, Ok _ => Raise CasadiError
                           | _, Raise e => Raise e
                           end) (Ok []) l = Raise CasadiError \/ exists w, fold_right (fun i acc => match nth_error v i, acc with
                           | Some a, Ok l => Ok (a :: l)
                           | None, Ok _ => Raise CasadiError
                           | _, Raise e => Raise e
                           end) (Ok []) l = Ok w).
    { intros l. induction l as [|a l [E|[w E]]]; simpl; [right; eexists; reflexivity| |]; rewrite E;
      destruct (nth_error v a); try (left; reflexivity); right; eexists; reflexivity. }
    destruct (X idx) as [->|[w ->]]; reflexivity.
  - rewrite (IH Hi L). destruct (nth_error v j); reflexivity.
Qed.
Lemma pick_all : forall n data idx, wide n data -> Forall (fun i => i < n) idx ->
    exists v, res_map (fun el => res_map (fun v => pick v idx) el) data = Ok v /\ Forall2 (Forall2 (rows_of idx)) data v.
Proof.
  intros n data idx W I. apply res_map_each. eapply Forall_impl; [|exact W]. intros el Hel. apply res_map_each.
  eapply Forall_impl; [|exact Hel]. intros v <-. apply pick_rows. exact I.
Qed.

Lemma get_variable_rows : forall r type data n idx, all_wide r -> of_type r type data n ->
    Forall (fun i => i < n) idx ->
    exists v, get_variable r type idx = Ok v /\ Forall2 (Forall2 (rows_of idx)) data v.
Proof.
  intros r type data n idx [Wx [Wy Wu]] T I. unfold get_variable.
  destruct T as [[-> [-> ->]]|[[-> [-> ->]]|[-> [-> ->]]]]; cbn [String.eqb Ascii.eqb Bool.eqb]; eapply pick_all; eassumption.
Qed.
Lemma get_variable_outside : forall r type data n idx i el v rest, all_wide r -> of_type r type data n ->
    In i idx -> n <= i -> data = (v :: el) :: rest -> get_variable r type idx = Raise CasadiError.
Proof.
  intros r type data n idx i el v rest [Wx [Wy Wu]] T Hi L E.
  assert (X : forall data n, wide n data -> n <= i -> data = (v :: el) :: rest ->
            res_map (fun el => res_map (fun v => pick v idx) el) data = Raise CasadiError).
  { intros dd m W Lm ->. inversion W as [|? ? W1 W2]; subst. inversion W1 as [|? ? W3 W4]; subst.
    cbn [res_map]. rewrite (pick_outside idx v i Hi Lm). reflexivity. }
  unfold get_variable. destruct T as [[-> [-> ->]]|[[-> [-> ->]]|[-> [-> ->]]]]; cbn [String.eqb Ascii.eqb Bool.eqb]; eapply X; eassumption.
Qed.
Lemma get_variable_unknown : forall r type idx, ~ In type ["x"; "y"; "u"]%string -> get_variable r type idx = Raise NotImplementedErr.
Proof.
  intros r type idx N. unfold get_variable.
  destruct (String.eqb_spec type "x") as [->|]; [exfalso; apply N; simpl; tauto|].
  destruct (String.eqb_spec type "y") as [->|]; [exfalso; apply N; simpl; tauto|].
  destruct (String.eqb_spec type "u") as [->|]; [exfalso; apply N; simpl; tauto|]. reflexivity.
Qed.

Lemma index_of_first : forall name names i, first_at name names i -> index_of name names = Some i.
Proof.
  intros name names. induction names as [|n l IH]; intros i [H1 H2]; [destruct i; discriminate|].
  cbn [index_of]. destruct (String.eqb_spec name n) as [->|N].
  - destruct i as [|i]; [reflexivity|]. exfalso. apply (H2 0); [lia | reflexivity].
  - destruct i as [|i]; [simpl in H1; congruence|]. rewrite (IH i); [reflexivity|]. split; [exact H1|].
    intros j Hj X. apply (H2 (S j)); [lia | exact X].
Qed.
Lemma index_of_none : forall name names, ~ In name names -> index_of name names = None.
Proof.
  intros name names. induction names as [|n l IH]; intros N; [reflexivity|]. cbn [index_of].
  destruct (String.eqb_spec name n) as [->|]; [exfalso; apply N; left; reflexivity|].
  rewrite IH; [reflexivity | intros X; apply N; right; exact X].
Qed.
Lemma index_of_bound : forall name names i, index_of name names = Some i -> i < length names.
Proof.
  intros name names. induction names as [|n l IH]; intros i; cbn [index_of]; [discriminate|].
  destruct (String.eqb name n); [intros H; injection H as <-; simpl; lia|].
  destruct (index_of name l) as [j|]; [|discriminate]. intros H. injection H as <-. specialize (IH j eq_refl). simpl. lia.
Qed.

Lemma by_name_meant : forall r name data i, all_wide r -> meant r name data i ->
    exists v, get_variable_by_name r name = Ok v /\ Forall2 (Forall2 (rows_of [i])) data v.
Proof.
  intros r name data i W M. unfold get_variable_by_name.
  assert (G : forall type d names, of_type r type d (length names) -> forall j, index_of name names = Some j ->
            exists v, get_variable r type [j] = Ok v /\ Forall2 (Forall2 (rows_of [j])) d v).
  { intros type d names T j Hj. apply (get_variable_rows r type d (length names)); [exact W | exact T|].
    constructor; [apply (index_of_bound _ _ _ Hj) | constructor]. }
  assert (Tx : of_type r "x" (w_x r) (length (w_x_names r))) by (left; repeat split).
  assert (Ty : of_type r "y" (w_y r) (length (w_y_names r))) by (right; left; repeat split).
  assert (Tu : of_type r "u" (w_u r) (length (w_u_names r))) by (right; right; repeat split).
  assert (Ex : forall f, exists f', match index_of name (w_x_names r) with
       | None => Ok f | Some i => match get_variable r "x" [i] with Ok v => Ok (Some v) | Raise e => Raise e end end = Ok f').
  { intros f. destruct (index_of name (w_x_names r)) as [j|] eqn:Ej; [|eexists; reflexivity].
    destruct (G _ _ _ Tx j Ej) as [v [-> _]]. eexists; reflexivity. }
  assert (Ey : forall f, exists f', match index_of name (w_y_names r) with
       | None => Ok f | Some i => match get_variable r "y" [i] with Ok v => Ok (Some v) | Raise e => Raise e end end = Ok f').
  { intros f. destruct (index_of name (w_y_names r)) as [j|] eqn:Ej; [|eexists; reflexivity].
    destruct (G _ _ _ Ty j Ej) as [v [-> _]]. eexists; reflexivity. }
  destruct M as [[F ->]|[[Nu [F ->]]|[Nu [Ny [F ->]]]]].
  - destruct (Ex None) as [f1 ->]. destruct (Ey f1) as [f2 ->]. rewrite (index_of_first _ _ _ F).
    destruct (G _ _ _ Tu i (index_of_first _ _ _ F)) as [v [-> R]]. exists v. split; [reflexivity | exact R].
  - destruct (Ex None) as [f1 ->]. rewrite (index_of_first _ _ _ F), (index_of_none _ _ Nu).
    destruct (G _ _ _ Ty i (index_of_first _ _ _ F)) as [v [-> R]]. exists v. split; [reflexivity | exact R].
  - rewrite (index_of_first _ _ _ F), (index_of_none _ _ Nu), (index_of_none _ _ Ny).
    destruct (G _ _ _ Tx i (index_of_first _ _ _ F)) as [v [-> R]]. exists v. split; [reflexivity | exact R].
Qed.
Lemma by_name_unknown : forall r name, ~ In name (w_x_names r ++ w_y_names r ++ w_u_names r) ->
    get_variable_by_name r name = Raise ValueError.
Proof.
  intros r name N. rewrite !in_app_iff in N. unfold get_variable_by_name. rewrite !index_of_none by tauto. reflexivity.
Qed.

(** ** Writing into vectors *)

Definition put_at {A : Type} (p : list A) (idx : list nat) (values : list A) : list A :=
  fold_left (fun acc iv => set_nth acc (fst iv) (snd iv)) (combine idx values) p.
Lemma put_at_length : forall (A : Type) idx (p vs : list A), length (put_at p idx vs) = length p.
Proof.
  unfold put_at. intros A idx. induction idx as [|i idx IH]; intros p [|v vs]; try reflexivity. cbn [combine fold_left fst snd].
  rewrite IH. apply set_nth_length.
Qed.
Lemma put_at_other : forall (A : Type) idx (p vs : list A) i, ~ In i idx -> nth_error (put_at p idx vs) i = nth_error p i.
Proof.
  unfold put_at. intros A idx. induction idx as [|j idx IH]; intros p [|v vs] i H; try reflexivity. cbn [combine fold_left fst snd].
  rewrite IH by (intros X; apply H; right; exact X). apply set_nth_other. intros ->. apply H. left; reflexivity.
Qed.
Lemma put_at_same : forall (A : Type) idx (p vs : list A) i j v, NoDup idx -> nth_error idx j = Some i -> nth_error vs j = Some v ->
    i < length p -> nth_error (put_at p idx vs) i = Some v.
Proof.
  intros A idx. induction idx as [|a idx IH]; intros p [|b vs] i j v N Hi Hv L; try (destruct j; discriminate).
  inversion N as [|? ? Ha N']; subst. unfold put_at in *. cbn [combine fold_left fst snd]. destruct j as [|j].
  - injection Hi as ->. injection Hv as ->. pose proof (put_at_other A idx (set_nth p i v) vs i Ha) as X. unfold put_at in X. rewrite X.
    apply set_nth_same. exact L.
  - eapply IH; try eassumption. rewrite set_nth_length. exact L.
Qed.

Lemma write_overwritten : forall names chosen idx v values,
    NoDup names -> NoDup chosen -> map (nth_error names) idx = map Some chosen ->
    length v = length names -> length values = length chosen ->
    exists v', write v idx values = Ok v' /\ overwritten names chosen v values v'.
Proof.
  intros names chosen idx v values Nn Nc Hidx Lv Lc.
  assert (Lidx : length idx = length chosen) by (apply (f_equal (@length _)) in Hidx; rewrite !map_length in Hidx; exact Hidx).
  assert (Nidx : NoDup idx).
  { assert (Nm : NoDup (map (nth_error names) idx)).
    { rewrite Hidx. apply FinFun.Injective_map_NoDup; [intros a b E; injection E as ->; reflexivity | exact Nc]. }
    exact (NoDup_map_inv _ _ Nm). }
  assert (Hj : forall j i, nth_error idx j = Some i -> exists n, nth_error chosen j = Some n /\ nth_error names i = Some n).
  { intros j i H. assert (E : nth_error (map (nth_error names) idx) j = Some (nth_error names i)) by (rewrite nth_error_map, H; reflexivity).
    rewrite Hidx, nth_error_map in E. destruct (nth_error chosen j) as [n|]; [|discriminate]. exists n.
    split; [reflexivity|]. injection E as E. symmetry; exact E. }
  assert (Hb : forall i, In i idx -> i < length names).
  { intros i Hi. apply In_nth_error in Hi. destruct Hi as [j Hji]. destruct (Hj j i Hji) as [n [_ En]]. apply nth_error_Some. congruence. }
  exists (put_at v idx values). split.
  - unfold write. replace (forallb _ idx) with true; [reflexivity|]. symmetry. apply forallb_forall. intros i Hi. apply Nat.ltb_lt.
    rewrite Lv. apply Hb, Hi.
  - split; [apply put_at_length|]. intros i n En. split.
    + intros Hn. apply put_at_other. intros Hi. apply In_nth_error in Hi. destruct Hi as [j Hji].
      destruct (Hj j i Hji) as [n' [Ho En']]. apply Hn. replace n with n' by congruence. exact (nth_error_In _ _ Ho).
    + intros j Ho.
      assert (Ei : exists i', nth_error idx j = Some i').
      { destruct (nth_error idx j) eqn:E; [eexists; reflexivity|]. apply nth_error_None in E.
        assert (j < length chosen) by (apply nth_error_Some; congruence). lia. }
      destruct Ei as [i' Hji]. destruct (Hj j i' Hji) as [n' [Ho' En']].
      assert (i' = i).
      { rewrite NoDup_nth_error in Nn. apply Nn; [apply nth_error_Some; congruence | congruence]. }
      subst i'.
      destruct (nth_error values j) as [x|] eqn:Ex.
      * eapply put_at_same; try eassumption. rewrite Lv. apply nth_error_Some. congruence.
      * apply nth_error_None in Ex. assert (j < length chosen) by (apply nth_error_Some; congruence). lia.
Qed.

(** ** Creation *)

Lemma theta_written : forall k theta_opt, NoDup (m_theta (k_model k)) -> NoDup (o_theta_opt (k_problem k)) ->
    incl (o_theta_opt (k_problem k)) (m_theta (k_model k)) ->
    rows (k_elements k) (n_theta_opt k) theta_opt ->
    forall ks a, NoDup ks ->
      (forall el, In el ks -> el < k_elements k /\ exists v, dget Nat.eqb el (snd a) = Some v /\ length v = length (m_theta (k_model k))) ->
      exists th', run_all (write_theta k theta_opt) ks a = ((fst a, th'), Ok tt) /\
        map fst th' = map fst (snd a) /\
        (forall el, ~ In el ks -> dget Nat.eqb el th' = dget Nat.eqb el (snd a)) /\
        (forall el v, In el ks -> dget Nat.eqb el (snd a) = Some v ->
           exists v', dget Nat.eqb el th' = Some v' /\
             overwritten (m_theta (k_model k)) (o_theta_opt (k_problem k)) v (nth el theta_opt []) v').
Proof.
  intros k theta_opt Nm No Hin [Lt Ft] ks. induction ks as [|el ks IH]; intros a Nk Hk.
  - exists (snd a). split; [destruct a; reflexivity|]. split; [reflexivity|]. split; [reflexivity | intros ? ? []].
  - inversion Nk as [|? ? Nel Nks]; subst. destruct (Hk el (or_introl eq_refl)) as [Hel [v [Ev Lv]]].
    assert (Lw : length (nth el theta_opt []) = length (o_theta_opt (k_problem k))).
    { rewrite Forall_forall in Ft. rewrite (Ft (nth el theta_opt [])); [reflexivity | apply nth_In; lia]. }
    destruct (write_overwritten (m_theta (k_model k)) (o_theta_opt (k_problem k)) (get_theta_opt_indices (k_problem k)) v
                (nth el theta_opt [])) as [v' [Ew Ov]]; try assumption.
    { apply opt_theta_indices; assumption. }
    assert (E1 : write_theta k theta_opt el a = ((fst a, dset Nat.eqb el v' (snd a)), Ok tt)).
    { unfold write_theta, cset. rewrite Ev, (at_index_nth _ theta_opt el IndexError []) by lia. rewrite Ew. reflexivity. }
    destruct (IH (fst a, dset Nat.eqb el v' (snd a)) Nks) as [th' [E2 [K2 [O2 S2]]]].
    { intros e He. destruct (Hk e (or_intror He)) as [He' [w [Edw Lew]]]. split; [exact He'|]. exists w. cbn [snd].
      rewrite (dget_dset_other Nat.eqb Nat.eqb_eq); [split; assumption | intros ->; contradiction]. }
    exists th'. cbn [run_all]. rewrite E1. split; [exact E2|]. cbn [snd] in *. split; [|split].
    + rewrite K2. apply (dkeys_dset_In Nat.eqb Nat.eqb_eq). change (map fst (snd a)) with (dkeys (snd a)). apply (in_map fst _ _ (dget_In Nat.eqb Nat.eqb_eq _ _ _ Ev)).
    + intros e He. rewrite O2 by (intros X; apply He; right; exact X).
      apply (dget_dset_other Nat.eqb Nat.eqb_eq). intros ->. apply He. left; reflexivity.
    + intros e w [<-|He] Edw.
      * rewrite (O2 _ Nel), (dget_dset_same Nat.eqb Nat.eqb_eq). assert (w = v) by congruence. subst w. exists v'. split; [reflexivity | exact Ov].
      * apply S2; [exact He|]. rewrite (dget_dset_other Nat.eqb Nat.eqb_eq); [exact Edw | intros ->; contradiction].
Qed.

Section Creation.
  Variable points : nat -> list Q.

  Lemma bps_split : forall k l, breakpoints k = Ok l ->
      removelast l = map (fun i => (o_t_f (k_problem k) - o_t_0 (k_problem k)) / q_of_nat (k_elements k) * q_of_nat i)%Q (seq 0 (k_elements k)) /\
      length (removelast l) = k_elements k /\ length l = k_elements k + 1 /\
      tl l = map (fun i => (o_t_f (k_problem k) - o_t_0 (k_problem k)) / q_of_nat (k_elements k) * q_of_nat i)%Q (seq 1 (k_elements k)).
  Proof.
    intros k l H. destruct (breakpoints_ok k l H) as [Hk ->].
    set (f := fun i : nat => _).
    assert (E1 : map f (seq 0 (k_elements k + 1)) = map f (seq 0 (k_elements k)) ++ [f (k_elements k)]).
    { rewrite seq_app, map_app. reflexivity. }
    assert (E2 : map f (seq 0 (k_elements k + 1)) = f 0 :: map f (seq 1 (k_elements k))).
    { rewrite Nat.add_1_r. reflexivity. }
    split; [rewrite E1, removelast_last; reflexivity|].
    split; [rewrite E1, removelast_last, map_length, seq_length; reflexivity|].
    split; [rewrite map_length, seq_length; reflexivity | rewrite E2; reflexivity].
  Qed.
  Lemma nth_map_seq : forall (A : Type) (f : nat -> A) from n i d, i < n -> nth i (map f (seq from n)) d = f (from + i).
  Proof.
    intros A f from n i d H. rewrite (nth_indep _ d (f 0)) by (rewrite map_length, seq_length; exact H).
    rewrite map_nth, seq_nth by exact H. reflexivity.
  Qed.
  Lemma interpolation_timed : forall k l taus, breakpoints k = Ok l -> forall el, el < k_elements k ->
      Forall2 Qeq (nth el (interpolation_times ((o_t_f (k_problem k) - o_t_0 (k_problem k)) / q_of_nat (k_elements k))%Q l taus) [])
        (map (time_in k el) taus).
  Proof.
    intros k l taus H el Hel. destruct (bps_split k l H) as [E _]. unfold interpolation_times. rewrite E, map_map.
    rewrite nth_map_seq by exact Hel. cbn [Nat.add]. induction taus as [|tau taus IH]; cbn [map]; constructor; [|exact IH].
    unfold time_in. ring.
  Qed.
  Lemma singles_timed : forall k (from : nat) tau, (q_of_nat from == tau)%Q -> forall el, el < k_elements k ->
      Forall2 Qeq (nth el (map (fun t => [t]) (map (fun i => (o_t_f (k_problem k) - o_t_0 (k_problem k)) / q_of_nat (k_elements k) * q_of_nat i)%Q
         (seq from (k_elements k)))) []) [time_in k el tau].
  Proof.
    intros k from tau H el Hel. rewrite map_map, nth_map_seq by exact Hel. constructor; [|constructor]. unfold time_in.
    rewrite <- H. unfold q_of_nat. rewrite Nat2Z.inj_add, inject_Z_plus. ring.
  Qed.

  Lemma state_timed : forall s k l, breakpoints k = Ok l ->
      timed k (state_times points s k ((o_t_f (k_problem k) - o_t_0 (k_problem k)) / q_of_nat (k_elements k))%Q l) (x_instants points s k).
  Proof.
    intros [] k l H el Hel; unfold state_times, x_instants.
    - apply (interpolation_timed k l (0%Q :: points (k_degree k)) H el Hel).
    - destruct (breakpoints_ok k l H) as [_ ->]. rewrite seq_app, !map_app.
      rewrite app_nth1 by (rewrite !map_length, seq_length; exact Hel). apply singles_timed; [reflexivity | exact Hel].
  Qed.
  Lemma algebraic_timed : forall s k l, breakpoints k = Ok l ->
      timed k (algebraic_times points s k ((o_t_f (k_problem k) - o_t_0 (k_problem k)) / q_of_nat (k_elements k))%Q l) (y_instants points s k).
  Proof.
    intros [] k l H el Hel; unfold algebraic_times, y_instants.
    - apply (interpolation_timed k l _ H el Hel).
    - destruct (bps_split k l H) as [_ [_ [_ ->]]]. apply singles_timed; [reflexivity | exact Hel].
  Qed.
  Lemma control_timed : forall s k l, breakpoints k = Ok l ->
      timed k (control_times points s k ((o_t_f (k_problem k) - o_t_0 (k_problem k)) / q_of_nat (k_elements k))%Q l) (u_instants points k).
  Proof.
    intros [] k l H el Hel; unfold control_times, u_instants, control_taus.
    - destruct (k_degree_control k =? 1); [apply (interpolation_timed k l [0%Q] H el Hel) | apply (interpolation_timed k l _ H el Hel)].
    - destruct (k_degree_control k =? 1).
      + destruct (bps_split k l H) as [-> _]. apply singles_timed; [reflexivity | exact Hel].
      + apply (interpolation_timed k l _ H el Hel).
  Qed.
  Lemma times_length : forall s k l dt, breakpoints k = Ok l ->
      k_elements k <= length (state_times points s k dt l) /\ length (algebraic_times points s k dt l) = k_elements k /\
      length (control_times points s k dt l) = k_elements k.
  Proof.
    intros s k l dt H. destruct (bps_split k l H) as [_ [L1 [L2 L3]]].
    assert (L4 : length (tl l) = k_elements k) by (rewrite L3, map_length, seq_length; reflexivity).
    destruct s; unfold state_times, algebraic_times, control_times, interpolation_times; rewrite ?map_length; repeat split; try lia.
    destruct (k_degree_control k =? 1); rewrite map_length; lia.
  Qed.

  Variable evaluated : traj Q -> arguments -> list (list Q) -> res (list (list (list Q))).

  Lemma unpack_reported : forall s k z, k_elements k <> 0 -> decided s k z -> unpack_with s k (flatten z) = Ok (reported s z).
  Proof.
    intros [] k z Hk D; cbn [unpack_with].
    - rewrite (collocation_unpack_flatten _ _ _ Hk D). reflexivity.
    - rewrite (shooting_unpack_flatten _ _ _ D). destruct z; reflexivity.
  Qed.
  Lemma last_state : forall s k z, k_elements k <> 0 -> decided s k z ->
      exists e x, last_of (states_of s z) = Ok e /\ last_of e = Ok x /\ length x = n_x k /\ x = last (last (r_x z) []) [].
  Proof.
    assert (G : forall n m k (x : list (list (list Q))), grid (S n) (S m) (n_x k) x ->
              exists before e l, x = before ++ [e ++ [l]] /\ length l = n_x k).
    { intros n m k x Hg. destruct (grid_last _ _ _ _ _ Hg) as [before [e [l [E _]]]]. exists before, e, l. split; [exact E|].
      destruct Hg as [_ F]. rewrite E in F. apply Forall_app in F. destruct F as [_ F]. inversion F as [|? ? [_ Fl] _]; subst.
      apply Forall_app in Fl. destruct Fl as [_ Fl]. inversion Fl; subst. assumption. }
    intros s k z Hk D. destruct s.
    - destruct D as [Dx _]. destruct (k_elements k) as [|n] eqn:En; [contradiction|]. rewrite Nat.add_1_r in Dx.
      destruct (G _ _ _ _ Dx) as [before [e [l [E Ll]]]]. cbn [states_of]. exists [last (last (r_x z) []) []], (last (last (r_x z) []) []).
      unfold last_of. rewrite rev_app_distr. split; [reflexivity|]. split; [reflexivity|]. split; [|reflexivity].
      rewrite E, !last_last. exact Ll.
    - destruct D as [Dx _]. rewrite Nat.add_1_r in Dx. destruct (G _ _ _ _ Dx) as [before [e [l [E Ll]]]]. cbn [states_of].
      exists (e ++ [l]), l. unfold last_of. rewrite E, !rev_app_distr. split; [reflexivity|]. split; [reflexivity|].
      split; [exact Ll|]. rewrite !last_last. reflexivity.
  Qed.

  Lemma created : forall s k names x_cost z x_0 p theta,
      k_elements k <> 0 -> decided s k z -> arguable k p theta ->
      (forall v, x_cost = Some v -> incl v (m_x (k_model k)) /\ NoDup (m_x (k_model k))) ->
      (control_count k = 0 -> forall a ts, exists u, evaluated (reported s z) a ts = Ok u) ->
      exists r p' theta',
        create_optimization_result points evaluated s k names x_cost (flatten z) x_0 (p, theta) = ((p', theta'), Ok r) /\
        w_elements r = k_elements k /\ w_x r = states_of s z /\ w_y r = r_y z /\
        (control_count k <> 0 -> w_u r = r_u z) /\
        (control_count k = 0 -> exists ts, timed k ts (u_instants points k) /\ evaluated (reported s z) (p', theta') ts = Ok (w_u r)) /\
        timed k (w_x_time r) (x_instants points s k) /\ timed k (w_y_time r) (y_instants points s k) /\
        timed k (w_u_time r) (u_instants points k) /\
        (w_t_f r = o_t_f (k_problem k) /\ w_x_0 r = x_0 /\ w_p_opt r = r_p z /\ w_theta_opt r = r_theta z /\ w_eta r = r_eta z) /\
        w_p r = p' /\ w_theta r = theta' /\
        overwritten (m_p (k_model k)) (o_p_opt (k_problem k)) p (r_p z) p' /\
        (dkeys theta' = dkeys theta /\
         forall el v, dget Nat.eqb el theta = Some v -> exists v', dget Nat.eqb el theta' = Some v' /\
           overwritten (m_theta (k_model k)) (o_theta_opt (k_problem k)) v (nth el (r_theta z) []) v') /\
        (x_cost = None -> w_cost r = None) /\
        (forall v, x_cost = Some v -> exists c, w_cost r = Some c /\
           forall j n i, nth_error v j = Some n -> nth_error (m_x (k_model k)) i = Some n ->
             nth_error c j = nth_error (last (last (r_x z) []) []) i) /\
        (names_fit k names -> (forall d, length (points d) = d) -> control_count k <> 0 -> k_degree k <> 0 ->
         complete r /\ all_wide r).
  Proof.
    intros s k names x_cost z x_0 p theta Hk D A Hc Hu.
    destruct A as [A1 A2 [A3 A4] [A5 A6] A7 A8 A9].
    assert (Dz : rows (k_elements k) (n_theta_opt k) (r_theta z) /\ length (r_p z) = n_p_opt k /\
                 grid (k_elements k) (control_count k) (n_u k) (r_u z)).
    { destruct s; destruct D as [_ [_ [D3 [_ [D5 D6]]]]]; auto. }
    destruct Dz as [Dt [Dp Du]].
    destruct (write_overwritten (m_p (k_model k)) (o_p_opt (k_problem k)) (get_p_opt_indices (k_problem k)) p (r_p z)) as [p' [Ep Op]]; try assumption.
    { apply opt_indices; assumption. }
    destruct (theta_written k (r_theta z) A5 A6 A2 Dt (map fst theta) (p', theta)) as [theta' [Et [Kt [_ St]]]]; [exact A8 | |].
    { intros el Hel. apply in_map_iff in Hel. destruct Hel as [[e v] [<- I]]. destruct (A9 _ _ I) as [B1 B2]. cbn [fst snd].
      split; [exact B1|]. exists v. split; [|exact B2]. apply (In_dget Nat.eqb Nat.eqb_eq); assumption. }
    assert (Eb : exists l, breakpoints k = Ok l).
    { unfold breakpoints, delta_t. destruct (Nat.eqb_spec (k_elements k) 0); [contradiction|]. eexists; reflexivity. }
    destruct Eb as [l Eb].
    set (dt := ((o_t_f (k_problem k) - o_t_0 (k_problem k)) / q_of_nat (k_elements k))%Q).
    assert (Ed : delta_t k = Ok dt).
    { unfold delta_t. destruct (Nat.eqb_spec (k_elements k) 0); [contradiction | reflexivity]. }
    set (cost := match x_cost with
                  | None => Ok None
                  | Some v => match last_of (states_of s z) with
                              | Raise e => Raise e
                              | Ok el => match last_of el with
                                         | Raise e => Raise e
                                         | Ok x => match pick x (find_variables_indices_in_vector Nat.eqb v (m_x (k_model k))) with
                                                   | Ok c => Ok (Some c)
                                                   | Raise e => Raise e
                                                   end
                                         end
                              end
                  end : res (option (list Q))).
    assert (Ec : exists c, cost = Ok c /\ (x_cost = None -> c = None) /\
       (forall v, x_cost = Some v -> exists c', c = Some c' /\
           forall j n i, nth_error v j = Some n -> nth_error (m_x (k_model k)) i = Some n ->
             nth_error c' j = nth_error (last (last (r_x z) []) []) i)).
    { unfold cost. destruct x_cost as [v|]; [|exists None; split; [reflexivity|]; split; [reflexivity | discriminate]].
      destruct (last_state s k z Hk D) as [e [x [-> [-> [Lx ->]]]]]. destruct (Hc v eq_refl) as [Iv Nx].
      assert (Em : map (@nth_error sym (m_x (k_model k))) (find_variables_indices_in_vector Nat.eqb v (m_x (k_model k))) = map (@Some sym) v)
        by exact (find_indices_members Nat.eqb Nat.eqb_eq v (m_x (k_model k)) Nx Iv).
      set (idx := find_variables_indices_in_vector Nat.eqb v (m_x (k_model k))) in *.
      assert (Hi : forall j i, nth_error idx j = Some i -> exists n, nth_error v j = Some n /\ nth_error (m_x (k_model k)) i = Some n).
      { intros j i H. assert (X : nth_error (map (nth_error (m_x (k_model k))) idx) j = Some (nth_error (m_x (k_model k)) i)) by (rewrite nth_error_map, H; reflexivity).
        rewrite Em, nth_error_map in X. destruct (nth_error v j) as [n|]; [|discriminate]. exists n. split; [reflexivity|]. injection X as X. symmetry; exact X. }
      destruct (pick_rows idx (last (last (r_x z) []) [])) as [c [Ep' Rc]].
      { apply Forall_forall. intros i Hin. apply In_nth_error in Hin. destruct Hin as [j Hj]. destruct (Hi j i Hj) as [n [_ Hn]].
        rewrite Lx. apply nth_error_Some. congruence. }
      rewrite Ep'. exists (Some c). split; [reflexivity|]. split; [discriminate|]. intros v0 Ev0. injection Ev0 as <-. exists c. split; [reflexivity|].
      intros j n i Hj Hni. unfold rows_of in Rc.
      assert (Li : length idx = length v) by (apply (f_equal (@length _)) in Em; rewrite !map_length in Em; exact Em).
      destruct (nth_error idx j) as [i'|] eqn:Ei.
      - destruct (Hi j i' Ei) as [n' [Hj' Hn']]. assert (n' = n) by congruence. subst n'.
        assert (i' = i) by (rewrite NoDup_nth_error in Nx; apply Nx; [apply nth_error_Some; congruence | congruence]). subst i'.
        assert (X : nth_error (map Some c) j = nth_error (map (nth_error (last (last (r_x z) []) [])) idx) j) by (rewrite Rc; reflexivity).
        rewrite !nth_error_map, Ei in X. cbn [option_map] in X. destruct (nth_error c j); [injection X as X; exact X | discriminate].
      - apply nth_error_None in Ei. assert (j < length v) by (apply nth_error_Some; congruence). lia. }
    destruct Ec as [c [Ec [Cn Cs]]].
    assert (U : exists u0 u, at_index (r_u z) 0 IndexError = Ok u0 /\
        (match u0 with
         | [] => fun a => (a, evaluated (reported s z) a (interpolation_times dt l (control_taus points k)))
         | _ => cret (r_u z)
         end : cmd arguments _) (p', theta') = ((p', theta'), Ok u) /\
        (control_count k <> 0 -> u = r_u z) /\
        (control_count k = 0 -> exists ts, timed k ts (u_instants points k) /\ evaluated (reported s z) (p', theta') ts = Ok u)).
    { destruct Du as [Lu Fu]. destruct (r_u z) as [|u0 us] eqn:Eu; [simpl in Lu; congruence|]. exists u0.
      assert (Lu0 : length u0 = control_count k) by (inversion Fu as [|? ? [L0 _] _]; subst; exact L0).
      destruct u0 as [|a u0].
      - destruct (Hu (eq_sym Lu0) (p', theta') (interpolation_times dt l (control_taus points k))) as [u Eu'].
        exists u. split; [reflexivity|]. split; [rewrite Eu'; reflexivity|]. split; [intros X; simpl in Lu0; congruence|].
        intros _. eexists. split; [|exact Eu']. exact (control_timed Collocation k l Eb).
      - exists ((a :: u0) :: us). split; [reflexivity|]. split; [reflexivity|]. split; [reflexivity|].
        intros X. rewrite X in Lu0. discriminate. }
    destruct U as [u0 [u [Eu0 [Eu [U1 U2]]]]].
    eexists. exists p', theta'. split.
    - unfold create_optimization_result. unfold cres at 1. rewrite (cbind_step _ _ _ _ _ _ (p, theta) dt); [|rewrite Ed; reflexivity].
      rewrite (cbind_step _ _ _ _ _ _ (p, theta) l); [|unfold cres; rewrite Eb; reflexivity].
      rewrite (cbind_step _ _ _ _ _ _ (p, theta) (reported s z)); [|unfold cres; rewrite (unpack_reported s k z Hk D); reflexivity].
      cbn [reported r_x r_y r_u r_eta r_p r_theta].
      rewrite (cbind_step _ _ _ _ _ _ (p', theta) tt); [|unfold write_p, cset; cbn [fst snd]; rewrite Ep; reflexivity].
      rewrite (cbind_step _ _ _ _ _ _ (p', theta') tt); [|cbn [snd]; exact Et].
      rewrite (cbind_step _ _ _ _ _ _ (p', theta') u0); [|unfold cres; rewrite Eu0; reflexivity].
      rewrite (cbind_step _ _ _ _ _ _ (p', theta') u); [|exact Eu].
      rewrite (cbind_step _ _ _ _ _ _ (p', theta') c); [|unfold cres; fold cost; rewrite Ec; reflexivity].
      reflexivity.
    - cbn [w_elements w_x w_y w_u w_x_time w_y_time w_u_time w_t_f w_x_0 w_p_opt w_theta_opt w_eta w_p w_theta w_cost fst snd].
      split; [reflexivity|]. split; [reflexivity|]. split; [reflexivity|]. split; [exact U1|]. split; [exact U2|].
      split; [exact (state_timed s k l Eb)|]. split; [exact (algebraic_timed s k l Eb)|]. split; [exact (control_timed s k l Eb)|].
      split; [repeat split|]. split; [reflexivity|]. split; [reflexivity|]. split; [exact Op|]. split; [|split; [exact Cn | split; [exact Cs|]]].
      split; [exact Kt|]. intros el v Ev. apply St; [|exact Ev]. apply (in_map fst _ _ (dget_In Nat.eqb Nat.eqb_eq _ _ _ Ev)).
      + intros [Nx [Ny [Nu Nt]]] Hp Hcc Hd. rewrite (U1 Hcc). destruct (bps_split k l Eb) as [_ [Lr _]].
        destruct (times_length s k l dt Eb) as [Lx [Ly Lu]].
        destruct (last_state s k z Hk D) as [el [xl [El [El' [Lxl Exl]]]]].
        assert (Sx : length (states_of s z) = k_elements k + 1 /\
                     (forall i, i < k_elements k -> rows (length (x_instants points s k i)) (n_x k) (nth i (states_of s z) [])) /\
                     rows 1 (n_x k) (nth (k_elements k) (states_of s z) [])).
        { destruct s; destruct D as [[Dl Df] _]; cbn [states_of x_instants].
          - rewrite app_length, Dl. split; [reflexivity|]. split.
            + intros i Hi. rewrite app_nth1 by lia. rewrite map_length. cbn [length]. rewrite Hp.
              rewrite Forall_forall in Df. replace (S (k_degree k)) with (k_degree k + 1) by lia. apply Df, nth_In. lia.
            + rewrite app_nth2 by lia. rewrite Dl, Nat.sub_diag. cbn [nth]. rewrite <- Exl. split; [reflexivity|]. constructor; [exact Lxl | constructor].
          - split; [exact Dl|]. rewrite Forall_forall in Df. split; [intros i Hi; apply Df, nth_In; lia | apply Df, nth_In; lia]. }
        destruct Sx as [Sx1 [Sx2 Sx3]].
        assert (Sy : grid (k_elements k) (length (y_instants points s k 0)) (n_y k) (r_y z) /\ forall i, length (y_instants points s k i) = length (y_instants points s k 0)).
        { split; [|intros i; destruct s; cbn [y_instants]; rewrite ?map_length; reflexivity].
          destruct s; destruct D as [_ [D2 _]]; cbn [y_instants]; rewrite ?map_length, ?Hp; exact D2. }
        assert (Su : forall i, length (u_instants points k i) = control_count k).
        { intros i. unfold u_instants, control_count in *. destruct (m_u_par (k_model k)) as [|a ups]; [contradiction|].
          destruct (Nat.eqb_spec (k_degree_control k) 1) as [->|]; [reflexivity | rewrite map_length; apply Hp]. }
        assert (Bl : forall times f, timed k times f -> forall i (v : list (list Q)) n, i < k_elements k -> rows (length (f i)) n v -> length (f i) <> 0 ->
                     block n (nth i times []) v).
        { intros times f T i v n Hi [Lv Fv] Hn. pose proof (Forall2_len _ _ _ _ _ (T i Hi)) as L. split; [intros ->; simpl in Lv; congruence|].
          split; [congruence | exact Fv]. }
        split.
        * constructor; cbn [w_x_names w_y_names w_u_names w_theta_names w_other w_elements w_x w_y w_u w_x_time w_y_time w_u_time w_t_f w_breakpoints w_theta_opt].
          -- intros _. rewrite Nx. split; [|split; [lia|]].
             ++ rewrite app_length. simpl. lia.
             ++ intros i Hi. assert (Ci : i < k_elements k \/ i = k_elements k) by lia. destruct Ci as [Ci| ->].
                ** rewrite app_nth1 by lia. apply (Bl _ _ (state_timed s k l Eb) i _ _ Ci); [apply Sx2, Ci | destruct s; simpl; lia].
                ** destruct Sx3 as [L3 F3]. split; [intros X; rewrite X in L3; discriminate|]. split; [|exact F3]. rewrite L3.
                   destruct s; cbn [state_times].
                   --- unfold interpolation_times. rewrite app_nth2; rewrite map_length; [|lia]. rewrite Lr, Nat.sub_diag. reflexivity.
                   --- destruct (breakpoints_ok k l Eb) as [_ ->]. rewrite app_nth1 by (rewrite !map_length, seq_length; lia).
                       rewrite map_map, nth_map_seq by lia. reflexivity.
          -- intros _. rewrite Ny. destruct Sy as [[Sy1 Sy2] Sy3]. split; [lia|]. split; [lia|]. intros i Hi.
             apply (Bl _ _ (algebraic_timed s k l Eb) i _ _ Hi).
             ++ rewrite Sy3. rewrite Forall_forall in Sy2. apply Sy2, nth_In. lia.
             ++ destruct s; cbn [y_instants]; rewrite ?map_length, ?Hp; [exact Hd | discriminate].
          -- intros _. rewrite Nu. destruct Du as [Du1 Du2]. split; [lia|]. split; [lia|]. intros i Hi.
             apply (Bl _ _ (control_timed s k l Eb) i _ _ Hi); rewrite Su; [|exact Hcc].
             rewrite Forall_forall in Du2. apply Du2, nth_In. lia.
          -- intros _. rewrite Nt. destruct Dt as [Dt1 Dt2]. split; [intros X; rewrite X in Dt1; simpl in Dt1; congruence|].
             split; [congruence | exact Dt2].
          -- intros ? ? ? [].
          -- repeat constructor; simpl; intuition discriminate.
        * assert (Wd : forall n m d (v : list (list (list Q))), grid n m d v -> wide d v).
          { intros n m d v [_ Fv]. eapply Forall_impl; [|exact Fv]. intros e [_ He]. exact He. }
          unfold all_wide. cbn [w_x_names w_y_names w_u_names w_x w_y w_u]. rewrite Nx, Ny, Nu. split; [|split; [exact (Wd _ _ _ _ (proj1 Sy)) | exact (Wd _ _ _ _ Du)]].
          apply Forall_forall. intros e He. apply In_nth with (d := []) in He. destruct He as [i [Hi <-]].
          assert (Ci : i < k_elements k \/ i = k_elements k) by lia. destruct Ci as [Ci| ->]; [exact (proj2 (Sx2 i Ci)) | exact (proj2 Sx3)].
  Qed.
End Creation.

(** ** Statements *)

Lemma dataset_contents : forall default r, complete r ->
    exists d, to_dataset default r = Ok d /\ consistent d /\
      dkeys d = reserved ++ map fst (w_other r) /\
      (forall k l, expected r k l -> contents k d = Some l) /\
      (forall e, look "x" d = Some e -> e_names e = w_x_names r) /\
      (forall e, look "y" d = Some e -> e_names e = w_y_names r) /\
      (forall e, look "u" d = Some e -> e_names e = w_u_names r) /\
      (forall e, look "theta_opt" d = Some e -> e_names e = w_theta_names r).
Proof.
  intros default r C. destruct (to_dataset_ok default r C) as [d [E [Hk [Hc _] Hr]]]. exists d. split; [exact E|].
  split; [exact Hc|]. split; [exact Hk|]. split.
  - intros k l X. destruct (expected_final default r C k l X) as [I ->]. destruct (Hr k I) as [e [El [Ep _]]]. unfold contents. rewrite El, <- Ep. reflexivity.
  - assert (G : forall k e, In k reserved -> look k d = Some e -> e_names e = labels default r k).
    { intros k e Hin He. destruct (Hr k) as [e' [El [_ [En _]]]]; [apply in_app_iff; left; exact Hin|]. congruence. }
    split; [|split; [|split]]; intros e He; apply G in He; try (simpl; tauto); exact He.
Qed.
Lemma first_control_sample : forall r, complete r -> w_u_names r <> [] -> w_elements r <> 0 ->
    exists t c, first_control r = Ok c /\ hd_error (samples (w_elements r) (w_u_time r) (w_u r)) = Some (t, c).
Proof.
  intros r C Hn Hk. destruct (cp_u _ C Hn) as [L1 [L2 B]]. destruct (B 0 ltac:(lia)) as [B1 [B2 _]].
  unfold first_control, samples. destruct (w_elements r) as [|n]; [contradiction|]. cbn [seq map concat].
  destruct (w_u r) as [|u0 us]; [simpl in L2; lia|]. destruct (w_u_time r) as [|t0 ts]; [simpl in L1; lia|]. cbn [nth] in *.
  destruct u0 as [|c u0]; [contradiction|]. destruct t0 as [|t t0]; [discriminate|]. exists t, c. split; reflexivity.
Qed.
Lemma is_valid_never : forall r b, is_valid r <> Ok b.
Proof.
  intros r b. unfold is_valid. destruct (negb (Qle_bool 0 (w_t_0 r))); [discriminate|].
  destruct (negb (Qle_bool 0 (w_t_f r))); [discriminate|]. destruct (w_breakpoints r); discriminate.
Qed.
Definition two_points (d : nat) : list Q := map (fun i => (q_of_nat (S i) / q_of_nat d)%Q) (seq 0 d).
Definition counted : list Q := map q_of_nat (seq 0 31).
Definition any_names : list string * list string * list string * list string :=
  (["position"; "speed"], ["force"], ["push"], ["wind"])%string.
Lemma arguments_kept_refuted :
  exists points evaluated k names raw x_0 p theta p' theta' r,
    create_optimization_result points evaluated Collocation k names None raw x_0 (p, theta) = ((p', theta'), Ok r) /\
    p' <> p /\ theta' <> theta.
Proof.
  destruct (cart_method 2 3) as [k|e] eqn:E; [|vm_compute in E; discriminate].
  exists two_points, (fun _ _ _ => Raise AnyException), k, any_names, counted, [1%Q; 0%Q], [100%Q; 200%Q], [(0, [7%Q; 1%Q]); (1, [8%Q; 2%Q]); (2, [9%Q; 3%Q])].
  vm_compute in E. injection E as <-. eexists. eexists. eexists. split; [vm_compute; reflexivity|]. split; discriminate.
Qed.
(** The vector [counted], by variables. *)
Definition cart_values : traj Q :=
  mkTraj [[[0; 1]; [2; 3]; [4; 5]]; [[6; 7]; [8; 9]; [10; 11]]; [[12; 13]; [14; 15]; [16; 17]]]%Q
    [[[18]; [19]]; [[20]; [21]]; [[22]; [23]]]%Q [[[24]]; [[25]]; [[26]]]%Q [] [27%Q] [[28]; [29]; [30]]%Q.

(** Proofs about the constraints that the transcription by collocation includes. *)
From Coq Require Import String Sorted SetoidList Permutation Lqa.
From Verif Require Import Base BaseProofs UtilModel UtilProofs ExprModel ExprProofs NlpModel NlpSpec NlpProofs SysModel
  SysSpec SysProofs SimModel OcpModel OcpSpec OcpMoreProofs LagModel LagSpec LagProofs DiscModel DiscSpec DiscProofs
  ColSpec ColPolyProofs ColEvalProofs ColProofs ColElementProofs.
Local Open Scope list_scope.
Local Open Scope nat_scope.

(** ** Vectors *)

Lemma vec_sub_vals : forall F env a b va vb e, vals F env a va -> vals F env b vb -> length va = length vb ->
    vec_sub a b = Ok e -> imposes F env (nlp_equality e) (Forall2 Qeq va vb) (length va).
Proof.
  intros F env a b va vb e Ha Hb L H. unfold vec_sub, zip_vec in H.
  assert (La := vals_length _ _ _ _ Ha). assert (Lb := vals_length _ _ _ _ Hb).
  destruct (Nat.eqb_spec (length a) (length b)) as [_|E]; [|lia]. injection H as <-.
  assert (V : vals F env (map (fun ab => EBin OSub (fst ab) (snd ab)) (combine a b))
                (map (fun xy => fst xy - snd xy)%Q (combine va vb))).
  { clear La Lb. revert b vb Hb L. induction Ha as [|x v a va Hx Ha IH]; intros b vb Hb L; [constructor|].
    destruct Hb as [|y w b vb Hy Hb]; [discriminate|]. cbn [combine map]. constructor.
    - cbn [eval fst snd binop_eval]. rewrite Hx, Hy. reflexivity.
    - apply IH; [exact Hb | simpl in L; lia]. }
  eapply imposes_iff; [apply (imposes_equality F env _ _ V)| |rewrite map_length, combine_length; lia].
  clear - L. revert vb L. induction va as [|x va IH]; intros [|y vb] L; try discriminate; [split; constructor|].
  cbn [combine map]. rewrite Forall_cons_iff. cbn [fst snd]. rewrite (IH vb) by (simpl in L; lia). split.
  - intros [A B]. constructor; [lra | exact B].
  - intros H. inversion H; subst. split; [lra | assumption].
Qed.

Lemma vec_scale_vals : forall F env c a va, vals F env a va -> vals F env (vec_scale c a) (map (Qmult c) va).
Proof.
  intros F env c a va H. induction H as [|x v a va Hx H IH]; [constructor|]. cbn [vec_scale map]. constructor; [|exact IH].
  cbn [eval binop_eval]. rewrite Hx. reflexivity.
Qed.
Lemma vals_self : forall F env es, vals F env es (map (eval F env) es).
Proof. intros F env es. induction es; constructor; [reflexivity | assumption]. Qed.

Lemma last_of_ok : forall (A : Type) (l : list A) a, last_of l = Ok a -> exists l', l = l' ++ [a].
Proof.
  intros A l a H. unfold last_of in H. apply at_index_ok in H. destruct (rev l) as [|x l'] eqn:E; [discriminate|].
  injection H as ->. exists (rev l'). rewrite <- (rev_involutive l), E. reflexivity.
Qed.
Lemma Forall2_last : forall (A B : Type) (R : A -> B -> Prop) l a l' d, Forall2 R (l ++ [a]) l' -> R a (last l' d).
Proof.
  intros A B R l a l' d H. apply Forall2_app_inv_l in H. destruct H as [l1 [l2 [_ [H2 ->]]]].
  inversion H2; subst. inversion H4; subst. rewrite last_last. assumption.
Qed.
Lemma list_sum_const : forall (A : Type) (n : nat) (l : list A), list_sum (map (fun _ => n) l) = length l * n.
Proof. intros A n l. induction l as [|a l IH]; [reflexivity|]. cbn [map list_sum length fold_right]. unfold list_sum in IH. rewrite IH. lia. Qed.

(** ** Increments *)

Section Increments.
  Variables (F : nat -> Q -> Q) (k : method) (env : sym -> Q) (s : par_syms) (r : traj sym).
  Variables (uval : nat -> list Q) (last_val : list Q).
  Hypothesis WB : well_bounded (k_problem k).
  Hypothesis Hu : forall el l, nth_error (r_u r) el = Some l -> uval el = map env (concat l).
  Hypothesis Hl : last_val = map env (ps_last_u s).
  Let o : ocp := k_problem k.

  Definition earlier (el : nat) : list Q := match el with 0 => last_val | S e => uval e end.
  Definition rate_step (el j : nat) : Q := (nth j (uval el) 0 - nth j (earlier el) 0)%Q.

  Lemma increments_count : length (o_du_min o) = n_u k -> length (o_du_max o) = n_u k ->
      list_sum (map (fun j => match increment_free o j with Ok false => 1 | _ => 0 end) (seq 0 (n_u k))) = bounded_increments o.
  Proof.
    intros L1 L2. unfold bounded_increments, increment_free. rewrite <- L2. rewrite <- L2 in L1. clear L2. revert L1.
    generalize (o_du_min o) as lo. induction (o_du_max o) as [|b hi IH]; intros [|a lo] L; try discriminate; [reflexivity|].
    cbn [length combine filter]. rewrite <- cons_seq, <- seq_shift. cbn [map list_sum fold_right]. rewrite map_map. cbn [nth_error].
    unfold list_sum in IH. rewrite (IH lo) by (simpl in L; lia).
    destruct b, a; reflexivity.
  Qed.

  Lemma increment_of : forall i l j a, nth_error (r_u r) i = Some l -> nth_error (match l with [] => [] | v :: _ => v end) j = Some a ->
      env a = nth j (uval i) 0%Q.
  Proof.
    intros i l j a Hl' Ha. rewrite (Hu i l Hl'). destruct l as [|v l]; [destruct j; discriminate|].
    cbn [concat]. rewrite map_app, app_nth1 by (rewrite map_length; apply nth_error_Some; congruence).
    symmetry. apply nth_error_nth. rewrite nth_error_map, Ha. reflexivity.
  Qed.

  Definition increment_within (i j : nat) : Prop :=
    forall lo hi, nth_error (o_du_min o) j = Some lo -> nth_error (o_du_max o) j = Some hi ->
      ext_le lo (Fin (rate_step i j)) /\ ext_le (Fin (rate_step i j)) hi.

  Lemma increments_imposed : forall i,
      imposes F env (include_increments k (r_u r) (ps_last_u s) i)
        (forall j lo hi, nth_error (o_du_min o) j = Some lo -> nth_error (o_du_max o) j = Some hi ->
           ext_le lo (Fin (rate_step i j)) /\ ext_le (Fin (rate_step i j)) hi)
        (bounded_increments o).
  Proof.
    intros i. destruct WB as [[_ [_ [[_ [_ [L1 L2]]] _]]] _]. fold o in L1, L2.
    assert (En : length (m_u (o_model o)) = n_u k) by reflexivity. rewrite En in L1, L2.
    assert (C : (forall j, In j (seq 0 (n_u k)) -> increment_within i j) <->
                (forall j lo hi, nth_error (o_du_min o) j = Some lo -> nth_error (o_du_max o) j = Some hi ->
                   ext_le lo (Fin (rate_step i j)) /\ ext_le (Fin (rate_step i j)) hi)).
    { split.
      - intros H j lo hi Hlo Hhi. apply (H j); [|exact Hlo | exact Hhi]. apply in_seq. split; [lia|]. cbn [Nat.add].
        assert (j < length (o_du_min o)) by (apply nth_error_Some; congruence). lia.
      - intros H j _ lo hi Hlo Hhi. apply (H j lo hi Hlo Hhi). }
    unfold include_increments. apply imposes_res. intros has Hhas. unfold has_delta_u in Hhas. fold o in Hhas. cbv zeta in Hhas. rewrite En in Hhas.
    destruct (Nat.ltb_spec (length (o_du_max o)) (n_u k)); [lia|]. destruct (Nat.ltb_spec (length (o_du_min o)) (n_u k)); [lia|].
    cbn [orb] in Hhas. injection Hhas as Hhas. destruct has.
    - apply imposes_res. intros now Hnow. apply at_index_ok in Hnow.
      eapply imposes_iff; [|exact C | exact (increments_count L1 L2)].
      apply imposes_run. intros j Hj. unfold include_increment. fold o. apply imposes_res. intros free Hfree. rewrite Hfree.
      destruct free.
      + eapply imposes_iff; [apply imposes_ret| |reflexivity]. split; [|trivial]. intros _ lo hi Hlo Hhi.
        unfold increment_free in Hfree. rewrite Hlo, Hhi in Hfree. destruct hi, lo; try discriminate. split; exact I.
      + apply imposes_res. intros un Hun. apply imposes_res. intros a Ha. apply imposes_res. intros up Hup.
        apply imposes_res. intros b Hb. apply imposes_res. intros lo Hlo. apply imposes_res. intros hi Hhi.
        apply at_index_ok in Hun, Ha, Hb, Hlo, Hhi.
        eapply imposes_iff; [apply (imposes_between F env _ (rate_step i j) lo hi)| |reflexivity].
        * cbn [eval binop_eval]. unfold rate_step.
          rewrite (increment_of i now j a Hnow) by (destruct now; [discriminate|]; injection Hun as ->; exact Ha).
          assert (Eb : (eval F env b == nth j (earlier i) 0)%Q).
          { destruct i as [|i']; cbn [earlier].
            - injection Hup as <-. rewrite nth_error_map in Hb. destruct (nth_error (ps_last_u s) j) as [v|] eqn:Ev; [|discriminate].
              injection Hb as <-. cbn [eval]. rewrite (Hl).
              rewrite (nth_error_nth (map env (ps_last_u s)) j 0%Q (x := env v)); [reflexivity|]. rewrite nth_error_map, Ev. reflexivity.
            - destruct (at_index (r_u r) i' IndexError) as [w|] eqn:Ew; [|discriminate]. apply at_index_ok in Ew.
              destruct (at_index w 0 IndexError) as [w0|] eqn:Ew0; [|discriminate]. apply at_index_ok in Ew0.
              injection Hup as <-. rewrite nth_error_map in Hb. destruct (nth_error w0 j) as [v|] eqn:Ev; [|discriminate].
              injection Hb as <-. cbn [eval].
              rewrite (increment_of i' w j v Ew) by (destruct w; [discriminate|]; injection Ew0 as ->; exact Ev). reflexivity. }
          rewrite Eb. reflexivity.
        * split; [intros A lo' hi' E1 E2; rewrite Hlo in E1; rewrite Hhi in E2; injection E1 as <-; injection E2 as <-; exact A
                 | intros A; apply A; assumption].
    - assert (A : forall j, In j (seq 0 (n_u k)) -> increment_free o j = Ok true).
      { intros j Hj. rewrite <- not_true_iff_false, existsb_exists in Hhas.
        apply in_seq in Hj. unfold increment_free.
        destruct (nth_error (o_du_max o) j) as [hi|] eqn:Ehi; [|apply nth_error_None in Ehi; lia].
        destruct (nth_error (o_du_min o) j) as [lo|] eqn:Elo; [|apply nth_error_None in Elo; lia].
        destruct hi, lo; try reflexivity; exfalso; apply Hhas; exists j; (split; [apply in_seq; lia | rewrite ?Ehi, ?Elo; reflexivity]). }
      eapply imposes_iff; [apply imposes_ret| |].
      + rewrite <- C. split; [|trivial]. intros _ j Hj lo hi Hlo Hhi. specialize (A j Hj). unfold increment_free in A.
        rewrite Hlo, Hhi in A. destruct hi, lo; try discriminate. split; exact I.
      + rewrite <- (increments_count L1 L2), (map_ext_in _ (fun _ => 0)) by (intros j Hj; rewrite (A j Hj); reflexivity).
        rewrite list_sum_const. lia.
  Qed.
End Increments.

Section Include.
  Variables (F : nat -> Q -> Q) (points : nat -> list Q) (dfun : nat -> expr -> expr) (k : method).
  Variables (env : sym -> Q) (s : par_syms) (r : traj sym) (q : trajectory).
  Hypothesis HF : respects F.
  Hypothesis T : transcribable k.
  Hypothesis Hpts : collocation_points (points (k_degree k)) (k_degree k).
  Hypothesis Sh : collocation_shape k r.
  Hypothesis D : describes k (points (k_degree k)) env s r q.
  Hypothesis Hp : length (ps_p s) = n_p k.
  Hypothesis Hth : rows (k_elements k) (n_theta k) (ps_theta s).
  Hypothesis Hx0 : length (ps_x0 s) = n_x k.
  Hypothesis HK : k_elements k <> 0.
  Let m : model := k_model k.
  Let o : ocp := k_problem k.
  Let pts : list Q := points (k_degree k).
  Let K : nat := k_elements k.
  Let vals := vals F env.
  Let imposes := imposes F env.

  Lemma x_at_Qeq : forall el a b, (a == b)%Q -> Forall2 Qeq (x_at k q el a) (x_at k q el b).
  Proof.
    intros el a b H. unfold x_at. induction (seq 0 (length (m_x (k_model k)))) as [|i l IH]; constructor; [|exact IH].
    rewrite H. reflexivity.
  Qed.
  Lemma last_point : (last (0%Q :: pts) 0 == 1)%Q.
  Proof.
    destruct Hpts as [L [_ H]]. fold pts in L, H. destruct pts as [|a l]; [|exact H].
    pose proof (tr_degree _ T). simpl in L. lia.
  Qed.
  Lemma ode_length : length (ode m) = n_x k.
  Proof.
    destruct (tr_equations _ T) as [E H]. fold m in E, H. unfold n_x. fold m. rewrite <- E, map_length. unfold ode, dvals.
    clear E. induction (m_ode m) as [|[x oe] d IH]; [reflexivity|]. cbn [map flat_map fst snd].
    destruct (H x oe (or_introl eq_refl)) as [e ->]. cbn [app length]. f_equal. apply IH. intros a b Hin. apply (H a b). right. exact Hin.
  Qed.
  Lemma ode_nth : forall i e, nth_error (ode m) i = Some e <-> exists x, nth_error (m_ode m) i = Some (x, Some e).
  Proof.
    destruct (tr_equations _ T) as [_ H]. fold m in H. unfold ode, dvals. revert H.
    induction (m_ode m) as [|[x oe] d IH]; intros H i e.
    - destruct i; split; [discriminate | intros [x E]; discriminate | discriminate | intros [x E]; discriminate].
    - destruct (H x oe (or_introl eq_refl)) as [e' ->]. cbn [map flat_map snd app]. destruct i as [|i]; cbn [nth_error].
      + split; [intros E; injection E as ->; exists x; reflexivity | intros [x' E]; injection E as _ ->; reflexivity].
      + apply IH. intros a b Hin. apply (H a b). right. exact Hin.
  Qed.

  (** ** One element *)

  Section One.
    Variables (i : nat) (e : element) (z : results).
    Hypothesis Hi : i < K.
    Hypothesis Hf : fits F k env r q i e.
    Hypothesis Hz : outcome F points k env q i z.

    Lemma x_block : rows (k_degree k + 1) (n_x k) (e_x e).
    Proof. destruct Sh as [[_ Gx] _]. rewrite Forall_forall in Gx. apply Gx, (nth_error_In _ i), (ft_x _ _ _ _ _ _ _ Hf). Qed.

    Definition dynamics_at (j : nat) : Prop :=
      forall tau, nth_error (0%Q :: pts) j = Some tau ->
        Forall2 Qeq (map (fun c => poly (derivative (q_x q i c)) tau) (seq 0 (n_x k)))
                    (map (Qmult (e_dt e)) (map (eval F (at_point k q i tau)) (ode m))).
    Lemma include_derivative_imposes : forall f j, derivative_function points dfun k = Ok f ->
        imposes (include_derivative points k e f z j) (dynamics_at j) (n_x k).
    Proof.
      intros f j Hder. unfold include_derivative.
      apply imposes_res. intros tau Ht. apply at_index_ok in Ht. unfold state_taus in Ht. fold pts in Ht.
      apply imposes_res. intros d Hd. apply imposes_res. intros g Hg. apply at_index_ok in Hg.
      apply imposes_res. intros v Hv.
      assert (Vd : vals d (map (fun c => poly (derivative (q_x q i c)) tau) (seq 0 (n_x k)))).
      { refine (derivative_vals F points dfun k HF (tr_degree _ T) Hpts env (e_x e) (q_x q i) f tau d x_block _ Hder Hd).
        intros c Hc. destruct (de_x _ _ _ _ _ _ D i c Hi Hc) as [A B]. split; [exact A|].
        intros a ta w Ha Hw. apply (B a ta w Ha). unfold entry. rewrite (ft_x _ _ _ _ _ _ _ Hf). exact Hw. }
      destruct (Forall2_nth' _ _ _ _ _ _ _ (oc_ode _ _ _ _ _ _ _ Hz) Ht) as [g' [Eg Vg]]. rewrite Hg in Eg. injection Eg as <-.
      assert (Vs := vec_scale_vals F env (e_dt e) _ _ Vg).
      assert (L : length (map (fun c => poly (derivative (q_x q i c)) tau) (seq 0 (n_x k))) =
                  length (map (Qmult (e_dt e)) (map (eval F (at_point k q i tau)) (ode m)))).
      { rewrite !map_length, seq_length. symmetry. apply ode_length. }
      eapply imposes_iff; [apply (vec_sub_vals F env _ _ _ _ v Vd Vs L Hv)| |rewrite map_length, seq_length; reflexivity].
      unfold dynamics_at. split; [|intros H; apply H, Ht]. intros H tau' E. rewrite Ht in E. injection E as <-. exact H.
    Qed.

    Definition algebraic_at (j : nat) : Prop :=
      forall tau, nth_error pts j = Some tau ->
        Forall (fun v => v == 0)%Q (map (eval F (at_point k q i tau)) (d_alg (get_dae_system m))).
    Lemma include_algebraic_imposes : forall j,
        imposes (cbind (cres (at_index (z_alg z) j IndexError)) (fun e => nlp_equality e)) (algebraic_at j)
                (length (d_alg (get_dae_system m))).
    Proof.
      intros j. apply imposes_res. intros g Hg. apply at_index_ok in Hg.
      destruct (Forall2_nth _ _ _ _ _ _ _ (oc_alg _ _ _ _ _ _ _ Hz) Hg) as [tau [Et V]].
      assert (L := vals_length _ _ _ _ V). rewrite map_length in L.
      eapply imposes_iff; [apply (imposes_equality F env _ _ V)| |exact L].
      unfold algebraic_at. fold pts in Et. fold m. split; [intros H tau' E; rewrite Et in E; injection E as <-; exact H | intros H; apply H, Et].
    Qed.

    Lemma constraint_rows : forall (c : list expr -> cmd nlp_state unit) (P : Q -> Prop) gs ws outs,
        (forall a b, (a == b)%Q -> (P a <-> P b)) ->
        (forall es vs, ColEvalProofs.vals F env es vs -> imposes (c es) (Forall P vs) (length es)) ->
        Forall2 (constraint_values F points k env q i) (combine gs ws) outs -> length gs = length outs ->
        imposes (crun c (concat outs))
          (forall j g w tau, nth_error gs j = Some g -> nth_error ws j = Some w -> In tau (imposed pts w) ->
             P (eval F (at_point k q i tau) g))
          (list_sum (map (fun gw : expr * string => length (imposed pts (snd gw))) (combine gs ws))).
    Proof.
      intros c P gs ws outs HP Hc H L.
      assert (H1 : forall out, In out (concat outs) -> length out = 1).
      { intros out Ho. apply in_concat in Ho. destruct Ho as [l [Hl Ho]].
        destruct (Forall2_In_r _ _ _ _ _ _ H Hl) as [gw [_ Hv]]. unfold constraint_values in Hv.
        destruct (Forall2_In_l _ _ _ _ _ _ Hv Ho) as [tau [_ V]]. apply vals_length in V. exact V. }
      pose proof (imposes_run F env _ c (fun out => Forall P (map (eval F env) out)) (fun out => length out) (concat outs)
                    (fun out _ => Hc out _ (vals_self F env out))) as R.
      eapply imposes_iff; [exact R| |].
      - split.
        + intros A j g w tau Hg Hw Ht.
          destruct (Forall2_nth _ _ _ _ _ _ _ H (combine_nth_error _ _ _ _ _ _ _ Hg Hw)) as [l [El Hv]].
          unfold constraint_values in Hv. cbn [fst snd] in Hv. destruct (Forall2_In_r _ _ _ _ _ _ Hv Ht) as [out [Ho V]].
          specialize (A out). inversion V as [|ex v l1 l2 Hev V']; subst. inversion V'; subst.
          assert (Hin : In [ex] (concat outs)) by (apply in_concat; exists l; split; [apply (nth_error_In _ _ El) | exact Ho]).
          specialize (A Hin). inversion A; subst. apply (HP _ _ Hev). assumption.
        + intros A out Ho. apply in_concat in Ho. destruct Ho as [l [Hl Ho]]. apply In_nth_error in Hl. destruct Hl as [j Hj].
          destruct (Forall2_nth' _ _ _ _ _ _ _ H Hj) as [[g w] [Egw Hv]].
          unfold constraint_values in Hv. cbn [fst snd] in Hv. destruct (Forall2_In_l _ _ _ _ _ _ Hv Ho) as [tau [Ht V]].
          inversion V as [|ex v l1 l2 Hev V']; subst. inversion V'; subst. constructor; [|constructor].
          apply (HP _ _ Hev). apply (A j g w tau); [| |exact Ht].
          * clear - Egw. revert ws j Egw. induction gs as [|a gs IH]; intros [|b ws] [|j] E; try discriminate; [injection E as -> ->; reflexivity | apply (IH ws j E)].
          * clear - Egw. revert ws j Egw. induction gs as [|a gs IH]; intros [|b ws] [|j] E; try discriminate; [injection E as -> ->; reflexivity | apply (IH ws j E)].
      - rewrite (map_ext_in _ (fun _ => 1) (concat outs)) by (intros a Ha; apply H1, Ha). rewrite list_sum_const, Nat.mul_1_r.
        clear R H1 L. induction H as [|gw l a b Hv H IH]; [reflexivity|]. cbn [concat map list_sum fold_right].
        rewrite app_length, IH. unfold constraint_values in Hv. rewrite (Forall2_len _ _ _ _ _ Hv). reflexivity.
    Qed.
  End One.

  (** ** Increments *)

  Lemma include_increments_imposes : forall i, i < K ->
      imposes (include_increments k (r_u r) (ps_last_u s) i)
        (forall j lo hi, nth_error (o_du_min o) j = Some lo -> nth_error (o_du_max o) j = Some hi ->
           ext_le lo (Fin (increment q i j)) /\ ext_le (Fin (increment q i j)) hi)
        (bounded_increments o).
  Proof.
    intros i _. exact (increments_imposed F k env s r (q_u q) (q_last_u q) (tr_bounds _ T)
                         (de_u _ _ _ _ _ _ D) (de_last_u _ _ _ _ _ _ D) i).
  Qed.
End Include.

(** Proofs about the augmented Lagrangian method: multipliers, penalties and iterations. *)
From Coq Require Import String Sorted SetoidList Lqa Qabs.
From Verif Require Import Base BaseProofs UtilModel UtilProofs ExprModel ExprProofs NlpModel NlpSpec SysModel
  SysSpec SysProofs OcpModel OcpSpec LagModel LagSpec LagProofs DiscModel DiscSpec DiscProofs
  ColSpec ColPolyProofs ColEvalProofs ColProofs ColElementProofs ColAssemblyProofs ColTopProofs PlantProofs AugModel AugSpec
  AugUpdateProofs.
Local Open Scope list_scope.
Local Open Scope nat_scope.

(** ** Calling the function *)

Lemma call_numbers : forall F points a own_p own_theta f out p_v own_v mu_v thv r q,
    let k := ag_method a in
    respects F -> transcribable k -> collocation_points (points (k_degree k)) (k_degree k) ->
    carries F (points (k_degree k)) a own_p own_theta ->
    collocation_shape k r -> p_v = own_v ++ mu_v -> length own_v = length own_p -> length mu_v = relaxed_count a ->
    rows (k_elements k) (n_theta k) thv ->
    reads k (points (k_degree k)) r p_v (fun el => nth el thv []) q ->
    create_nu_update_func points a = Ok f ->
    call_update F f (flatten r) p_v (concat thv) = Ok out ->
    length out = k_elements k /\ k_elements k <> 0 /\
    forall i, i < k_elements k -> exists cols, nth_error out i = Some cols /\ length cols = k_degree k /\
      forall j tau, nth_error (points (k_degree k)) j = Some tau ->
        exists o, nth_error cols j = Some o /\ numbers_at F a own_theta thv q i j tau mu_v o.
Proof.
  intros F points a own_p own_theta f out p_v own_v mu_v thv r q k HF T Hpts C Sr Ep Lown Lmu Lth R Hf Hc.
  unfold create_nu_update_func in Hf. fold k in Hf.
  destruct (collocation_unpack k (ag_variables a)) as [r'|] eqn:Eu; [|discriminate].
  destruct (delta_t k) as [dt|] eqn:Edt; [|discriminate]. destruct (breakpoints k) as [bps|] eqn:Eb; [|discriminate].
  destruct (index_vec _ _) as [mus|] eqn:Emu; [|discriminate]. destruct (res_map _ _) as [outs|] eqn:Eo; [|discriminate].
  injection Hf as <-.
  assert (HK := proj1 (breakpoints_ok _ _ Eb)).
  destruct (collocation_unpack_spec _ k (ag_variables a) HK) as [U1 [U2 U3]].
  assert (Lv : length (ag_variables a) = collocation_size k).
  { destruct (Nat.lt_trichotomy (length (ag_variables a)) (collocation_size k)) as [H|[H|H]]; [|exact H|].
    - rewrite (U2 H) in Eu. discriminate.
    - rewrite (U3 H) in Eu. discriminate. }
  destruct (U1 Lv) as [rs [Er [Srs Ers]]].
  assert (E' : r' = with_last_state rs) by congruence. subst r'. clear Eu.
  assert (Lp : length p_v = n_p k).
  { rewrite Ep, app_length, Lown, Lmu. unfold n_p, k. rewrite (ca_mu _ _ _ _ _ C), app_length, (ca_weights _ _ _ _ _ C). reflexivity. }
  destruct (out_numbers F points a own_p own_theta HF T Hpts C p_v thv r q rs Sr Srs Ers Lp Lth R HK dt bps Edt Eb
              own_v mu_v Ep Lown Lmu mus Emu outs out Eo Hc) as [L G].
  split; [exact L|]. split; [exact HK | exact G].
Qed.

(** ** Errors *)

Lemma q_max_spec : forall a b, (a <= q_max a b)%Q /\ (b <= q_max a b)%Q /\ (q_max a b = a \/ q_max a b = b).
Proof.
  intros a b. unfold q_max. destruct (Qle_bool a b) eqn:E.
  - apply Qle_bool_iff in E. split; [exact E|]. split; [apply Qle_refl | right; reflexivity].
  - assert (H : (b < a)%Q). { apply Qnot_le_lt. intros H. apply Qle_bool_iff in H. congruence. }
    split; [apply Qle_refl|]. split; [apply Qlt_le_weak, H | left; reflexivity].
Qed.

Lemma row_errors_fold : forall cs acc n, length acc = n -> Forall (fun c => length c = n) cs ->
    let e := fold_left (fun acc col => map (fun ab => q_max (fst ab) (Qabs (snd ab))) (combine acc col)) cs acc in
    length e = n /\
    forall i x, nth_error e i = Some x ->
      (forall y, nth_error acc i = Some y -> (y <= x)%Q) /\
      (forall c v, In c cs -> nth_error c i = Some v -> (Qabs v <= x)%Q) /\
      (nth_error acc i = Some x \/ exists c v, In c cs /\ nth_error c i = Some v /\ x = Qabs v).
Proof.
  intros cs. induction cs as [|c cs IH]; intros acc n La Lc; cbn [fold_left].
  - split; [exact La|]. intros i x Hx. split; [|split; [intros c v []|left; exact Hx]].
    intros y Hy. rewrite Hx in Hy. injection Hy as ->. apply Qle_refl.
  - inversion Lc as [|? ? Hc Lc']; subst.
    set (acc' := map (fun ab : Q * Q => q_max (fst ab) (Qabs (snd ab))) (combine acc c)).
    assert (La' : length acc' = length acc) by (unfold acc'; rewrite map_length, combine_length, Hc; apply Nat.min_id).
    destruct (IH acc' (length acc) La' Lc') as [Le He]. split; [exact Le|]. intros i x Hx.
    destruct (He i x Hx) as [H1 [H2 H3]].
    assert (Hi : i < length acc) by (rewrite <- Le; apply nth_error_Some; congruence).
    destruct (nth_error acc i) as [y|] eqn:Ey; [|apply nth_error_None in Ey; lia].
    destruct (nth_error c i) as [v|] eqn:Ev; [|apply nth_error_None in Ev; lia].
    assert (Ea : nth_error acc' i = Some (q_max y (Qabs v))).
    { unfold acc'. rewrite nth_error_map, (combine_nth_error _ _ _ _ _ _ _ Ey Ev). reflexivity. }
    specialize (H1 _ Ea). destruct (q_max_spec y (Qabs v)) as [M1 [M2 M3]].
    split; [intros y' Hy'; injection Hy' as <-; apply (Qle_trans _ _ _ M1 H1)|]. split.
    + intros c' v' [<-|Hc'] Hv'; [|apply (H2 c' v' Hc' Hv')]. rewrite Ev in Hv'. injection Hv' as <-.
      apply (Qle_trans _ _ _ M2 H1).
    + destruct H3 as [H3|[c' [v' [Hc' [Hv' Hx']]]]].
      * rewrite Ea in H3. injection H3 as <-. destruct M3 as [M3|M3]; rewrite M3; [left; reflexivity|].
        right. exists c, v. split; [left; reflexivity|]. split; [exact Ev | reflexivity].
      * right. exists c', v'. split; [right; exact Hc'|]. split; [exact Hv' | exact Hx'].
Qed.
Lemma row_errors_spec : forall cols n, cols <> [] -> Forall (fun c => length c = n) cols ->
    length (row_errors cols) = n /\
    forall i x, nth_error (row_errors cols) i = Some x ->
      (forall c v, In c cols -> nth_error c i = Some v -> (Qabs v <= x)%Q) /\
      exists c v, In c cols /\ nth_error c i = Some v /\ x = Qabs v.
Proof.
  intros [|c cs] n Hne H; [contradiction|]. inversion H as [|? ? Hc Hcs]; subst. cbn [row_errors].
  destruct (row_errors_fold cs (map Qabs c) (length c) (map_length _ _) Hcs) as [L G]. split; [exact L|].
  intros i x Hx. destruct (G i x Hx) as [H1 [H2 H3]]. split.
  - intros c' v' [<-|Hc'] Hv'; [apply H1, map_nth_error, Hv' | apply (H2 c' v' Hc' Hv')].
  - destruct H3 as [H3|[c' [v' [Hc' [Hv' Hx']]]]].
    + rewrite nth_error_map in H3. destruct (nth_error c i) as [v|] eqn:Ev; [|discriminate]. injection H3 as <-.
      exists c, v. split; [left; reflexivity|]. split; [exact Ev | reflexivity].
    + exists c', v'. split; [right; exact Hc'|]. split; assumption.
Qed.

(** ** Joined parameters *)

Lemma joined_rows : forall a own_p own_theta s p th theta_k ths,
    fitting a own_p own_theta s p th ->
    join_thetas [th; Some (st_nu s)] = Ok theta_k -> lookup_all theta_k (k_elements (ag_method a)) = Ok ths ->
    length ths = k_elements (ag_method a) /\
    forall el, el < k_elements (ag_method a) -> exists v, dget Nat.eqb el (st_nu s) = Some v /\
      length v = relaxed_count a * k_degree (ag_method a) /\
      nth_error ths el = Some (given_in th el ++ v).
Proof.
  intros a own_p own_theta s p th theta_k ths Fi J L. destruct (lookup_all_ok _ _ _ _ L) as [Len Hd].
  split; [exact Len|]. intros el Hel. destruct (fi_nu _ _ _ _ _ _ Fi el Hel) as [v [Ev Lv]].
  exists v. split; [exact Ev|]. split; [exact Lv|].
  destruct (nth_error ths el) as [w|] eqn:Ew; [|apply nth_error_None in Ew; lia].
  apply Hd in Ew. rewrite (proj2 (join_thetas_lookup _ _ J) el) in Ew. unfold theta_values in Ew. cbn [flat_map] in Ew.
  rewrite Ev in Ew. unfold given_in.
  destruct th as [d|]; [destruct (dget Nat.eqb el d) as [x|]|]; cbn [app concat] in Ew; injection Ew as <-;
    rewrite ?app_nil_r; reflexivity.
Qed.

(** ** One update *)

Lemma dget_combine_seq : forall (V : Type) (l : list V) n i, length l = n ->
    dget Nat.eqb i (combine (seq 0 n) l) = nth_error l i.
Proof.
  intros V l. assert (G : forall b i, dget Nat.eqb (b + i) (combine (seq b (length l)) l) = nth_error l i).
  { induction l as [|x l IH]; intros b i; [destruct i; reflexivity|]. cbn [length seq combine dget].
    destruct i as [|i]; [rewrite Nat.add_0_r, Nat.eqb_refl; reflexivity|].
    destruct (Nat.eqb_spec (b + S i) b); [lia|]. cbn [nth_error]. rewrite <- (IH (S b) i). f_equal. lia. }
  intros n i <-. apply (G 0 i).
Qed.
Lemma combine_fst_seq : forall (A B : Type) (l : list A) (l' : list B), length l = length l' -> map fst (combine l l') = l.
Proof.
  intros A B l. induction l as [|x l IH]; intros [|y l'] H; try discriminate; [reflexivity|].
  cbn [combine map fst]. rewrite IH; [reflexivity|]. cbn in H. lia.
Qed.
Lemma concat_block : forall (A : Type) n (l : list (list A)) j i v, Forall (fun w => length w = n) l -> i < n ->
    nth_error l j = Some v -> nth_error (concat l) (j * n + i) = nth_error v i.
Proof.
  intros A n l j i v H Hi. revert j. induction H as [|w l Hw H IH]; intros [|j] Hj; try discriminate.
  - injection Hj as ->. cbn [concat]. rewrite nth_error_app1 by (cbn [Nat.mul Nat.add]; lia). reflexivity.
  - cbn [concat]. rewrite nth_error_app2 by (rewrite Hw; cbn [Nat.mul]; lia).
    rewrite <- (IH j Hj). f_equal. rewrite Hw. cbn [Nat.mul]. lia.
Qed.
Lemma concat_rows_length : forall (A : Type) n (l : list (list A)), Forall (fun w => length w = n) l -> length (concat l) = length l * n.
Proof. intros A n l H. induction H as [|w l Hw H IH]; [reflexivity|]. cbn [concat length]. rewrite app_length, Hw, IH. reflexivity. Qed.

Section Update.
  Variables (F : nat -> Q -> Q) (points : nat -> list Q) (opts : al_options) (a : augmented) (own_p own_theta : list sym).
  Let k : method := ag_method a.
  Let pts : list Q := points (k_degree k).
  Hypothesis HF : respects F.
  Hypothesis T : transcribable k.
  Hypothesis Hpts : collocation_points pts (k_degree k).
  Hypothesis C : carries F pts a own_p own_theta.
  Variables (s : aug_state) (p : option (list Q)) (th : option (theta Q)) (r : traj Q) (q : trajectory).
  Hypothesis Fi : fitting a own_p own_theta s p th.
  Hypothesis Sr : collocation_shape k r.
  Hypothesis R : reads k pts r (given_p p ++ st_mu s) (fun el => given_in th el ++ nu_in s el) q.

  Lemma called_numbers : forall f theta_k ths out,
      join_thetas [th; Some (st_nu s)] = Ok theta_k -> lookup_all theta_k (k_elements k) = Ok ths ->
      create_nu_update_func points a = Ok f ->
      call_update F f (flatten r) (with_mu p (st_mu s)) (concat ths) = Ok out ->
      length out = k_elements k /\ k_elements k <> 0 /\
      forall i, i < k_elements k -> exists cols, nth_error out i = Some cols /\ length cols = k_degree k /\
        forall j tau, nth_error pts j = Some tau ->
          exists o, nth_error cols j = Some o /\ numbers_at F a own_theta ths q i j tau (st_mu s) o.
  Proof.
    intros f theta_k ths out J L Hf Hc. destruct (joined_rows a own_p own_theta s p th theta_k ths Fi J L) as [Lt Ht]. fold k in Lt, Ht.
    assert (Ep : with_mu p (st_mu s) = given_p p ++ st_mu s) by (destruct p; reflexivity).
    refine (call_numbers F points a own_p own_theta f out (with_mu p (st_mu s)) (given_p p) (st_mu s) ths r q HF T Hpts C Sr Ep
              (fi_p _ _ _ _ _ _ Fi) (fi_mu _ _ _ _ _ _ Fi) _ _ Hf Hc).
    - split; [exact Lt|]. apply Forall_forall. intros v Hv. apply In_nth_error in Hv. destruct Hv as [el Hel].
      assert (Hlt : el < k_elements k) by (rewrite <- Lt; apply nth_error_Some; congruence).
      destruct (Ht el Hlt) as [v0 [_ [L0 E0]]]. rewrite Hel in E0. injection E0 as ->.
      rewrite app_length, (fi_theta _ _ _ _ _ _ Fi el Hlt), L0.
      destruct (ca_nu _ _ _ _ _ C) as [par [E [L1 _]]]. unfold n_theta. rewrite E, app_length, L1.
      destruct Hpts as [Hl _]. fold k. rewrite Hl. reflexivity.
    - rewrite Ep. destruct R as [R1 R2 R3 R4 R5 R6 R7]. constructor; try assumption.
      intros el Hel. rewrite (R5 el Hel). destruct (Ht el Hel) as [v0 [Ev [_ E0]]]. unfold nu_in. rewrite Ev.
      symmetry. apply nth_error_nth, E0.
  Qed.

  Lemma computed : forall theta_k s1 errors,
      join_thetas [th; Some (st_nu s)] = Ok theta_k -> al_skip_compute opts = false ->
      compute_new_nu_and_error F opts (create_nu_update_func points a) (k_elements k) (with_mu p (st_mu s)) theta_k (flatten r) s
        = (s1, Ok errors) ->
      exists new al eq, moved F pts a q s new /\ largest F pts a q errors /\
        (if al_skip_nu opts then s1 = set_st_violations al eq s
         else match st_last s with
              | Some _ => if (al_improve opts && existsb (fun e => negb (Qle_bool e 0)) errors)%bool
                          then take_improvements new errors (set_st_violations al eq s) = (s1, Ok tt)
                          else s1 = set_nu_tilde new (set_st_violations al eq s)
              | None => s1 = set_nu_tilde new (set_st_violations al eq s)
              end).
  Proof.
    intros theta_k s1 errors J Hskip H. unfold compute_new_nu_and_error in H.
    destruct (create_nu_update_func points a) as [f|] eqn:Ef; [|discriminate].
    apply cbind_back in H. destruct H as [sa [fa [Ha H]]]. injection Ha as <- <-. rewrite Hskip in H.
    apply cbind_back in H. destruct H as [sa [ths [Ha H]]]. unfold cres in Ha. injection Ha as <- L.
    apply cbind_back in H. destruct H as [sa [out [Ha H]]]. unfold cres in Ha. injection Ha as <- Hc.
    destruct (called_numbers f theta_k ths out J L Ef Hc) as [Lo [HK G]].
    destruct (joined_rows a own_p own_theta s p th theta_k ths Fi J L) as [Lt Ht]. fold k in Lt, Ht.
    apply cbind_back in H. destruct H as [s0 [[] [Ha H]]]. unfold cmodify in Ha. injection Ha as <-.
    set (al := map (map (fun c => snd (fst c))) out) in H. set (eq := map (map snd) out) in H.
    set (er := row_errors (map (fun c => snd (fst c) ++ snd c) (concat out))) in H.
    set (new := combine (seq 0 (k_elements k)) (map (fun cols => concat (map (fun c => fst (fst c)) cols)) out)) in H.
    apply cbind_back in H. destruct H as [s2 [[] [Ha H]]]. unfold cret in H. injection H as <- Ee.
    assert (Col : forall i cols c, nth_error out i = Some cols -> In c cols ->
              i < k_elements k /\ exists j tau, nth_error pts j = Some tau /\ nth_error cols j = Some c /\ numbers_at F a own_theta ths q i j tau (st_mu s) c).
    { intros i cols c Hi Hc'. assert (Hlt : i < k_elements k) by (rewrite <- Lo; apply nth_error_Some; congruence).
      split; [exact Hlt|]. destruct (G i Hlt) as [cols' [E1 [E2 E3]]]. rewrite Hi in E1. injection E1 as <-.
      apply In_nth_error in Hc'. destruct Hc' as [j Hj].
      assert (Hjl : j < length pts). { destruct Hpts as [Hl _]. rewrite Hl, <- E2. apply nth_error_Some. congruence. }
      destruct (nth_error pts j) as [tau|] eqn:Et; [|apply nth_error_None in Et; lia].
      exists j, tau. split; [exact Et|]. split; [exact Hj|]. destruct (E3 j tau Et) as [o [Eo No]]. rewrite Hj in Eo. injection Eo as <-. exact No. }
    exists new, al, eq. split; [|split].
    - split; [|split].
      + unfold new. rewrite combine_fst_seq by (rewrite map_length, seq_length; symmetry; exact Lo). reflexivity.
      + intros el Hel. fold k in Hel. unfold new. rewrite dget_combine_seq by (rewrite map_length; exact Lo).
        destruct (G el Hel) as [cols [E1 [E2 E3]]]. rewrite (map_nth_error _ _ _ E1). eexists. split; [reflexivity|].
        rewrite (concat_rows_length _ (relaxed_count a)); [rewrite map_length, E2; fold k; lia|].
        apply Forall_map, Forall_forall. intros c Hc'. destruct (Col el cols c E1 Hc') as [_ [j [tau [_ [_ N]]]]]. apply (nb_size _ _ _ _ _ _ _ _ _ _ N).
      + intros el j tau i g w old Hel Hj Hg Hw Hold. unfold multiplier, new. rewrite dget_combine_seq by (rewrite map_length; exact Lo).
        fold k in Hel. destruct (G el Hel) as [cols [E1 [E2 E3]]]. rewrite (map_nth_error _ _ _ E1).
        destruct (E3 j tau Hj) as [o [Eo No]].
        rewrite (concat_block _ (relaxed_count a) _ j i (fst (fst o))).
        * apply (nb_nu _ _ _ _ _ _ _ _ _ _ No i old g w); [|exact Hg | exact Hw].
          destruct (Ht el Hel) as [v [Ev [_ E0]]]. rewrite (nth_error_nth _ _ _ E0).
          rewrite nth_error_app2 by (rewrite (fi_theta _ _ _ _ _ _ Fi el Hel); lia).
          rewrite (fi_theta _ _ _ _ _ _ Fi el Hel). unfold multiplier in Hold. rewrite Ev in Hold. rewrite <- Hold. f_equal. lia.
        * apply Forall_map, Forall_forall. intros c Hc'. destruct (Col el cols c E1 Hc') as [_ [j' [tau' [_ [_ N]]]]]. apply (nb_size _ _ _ _ _ _ _ _ _ _ N).
        * unfold relaxed_count. apply nth_error_Some. congruence.
        * apply (map_nth_error (fun c => fst (fst c)) _ _ Eo).
    - rewrite <- Ee.
      assert (Cols : forall c, In c (concat out) -> exists el j tau, el < k_elements k /\ nth_error pts j = Some tau /\ numbers_at F a own_theta ths q el j tau (st_mu s) c).
      { intros c Hc'. apply in_concat in Hc'. destruct Hc' as [cols [H1 H2]]. apply In_nth_error in H1. destruct H1 as [el H1].
        destruct (Col el cols c H1 H2) as [Hlt [j [tau [A [_ B]]]]]. exists el, j, tau. auto. }
      assert (Hne : map (fun c : list Q * list Q * list Q => snd (fst c) ++ snd c) (concat out) <> []).
      { intros E. apply map_eq_nil in E. destruct (G 0) as [cols [E1 [E2 _]]]; [lia|].
        assert (D := tr_degree _ T). destruct cols as [|c cols]; [cbn in E2; lia|].
        assert (I : In c (concat out)) by (apply in_concat; exists (c :: cols); split; [apply (nth_error_In _ _ E1) | left; reflexivity]).
        rewrite E in I. exact I. }
      destruct (row_errors_spec _ (relaxed_count a) Hne) as [Le He].
      { apply Forall_map, Forall_forall. intros c Hc'. destruct (Cols c Hc') as [el [j [tau [_ [_ N]]]]].
        rewrite (Forall2_len _ _ _ _ _ (nb_values _ _ _ _ _ _ _ _ _ _ N)), map_length. reflexivity. }
      fold er in Le, He. split; [exact Le|]. intros i g err Hg Herr. destruct (He i err Herr) as [H1 [c [v [Hin [Hv Hx]]]]]. split.
      + intros el tau Hel Ht'. apply In_nth_error in Ht'. destruct Ht' as [j Hj]. destruct (G el Hel) as [cols [E1 [_ E3]]].
        destruct (E3 j tau Hj) as [o [Eo No]].
        destruct (Forall2_nth' _ _ _ _ _ _ _ (nb_values _ _ _ _ _ _ _ _ _ _ No) (map_nth_error _ _ _ Hg)) as [v' [Ev' Vv']].
        assert (HA : (Qabs v' <= err)%Q); [|eapply Qle_trans; [|exact HA]; apply Qle_lteq; right; symmetry; apply Qabs_wd, Vv'].
        apply (H1 (snd (fst o) ++ snd o) v'); [|exact Ev'].
        apply (in_map (fun c => snd (fst c) ++ snd c)). apply in_concat. exists cols. split; [apply (nth_error_In _ _ E1) | apply (nth_error_In _ _ Eo)].
      + apply in_map_iff in Hin. destruct Hin as [o [<- Ho]]. destruct (Cols o Ho) as [el [j [tau [Hel [Hj No]]]]].
        exists el, tau. split; [exact Hel|]. split; [apply (nth_error_In _ _ Hj)|].
        destruct (Forall2_nth' _ _ _ _ _ _ _ (nb_values _ _ _ _ _ _ _ _ _ _ No) (map_nth_error _ _ _ Hg)) as [v' [Ev' Vv']].
        rewrite Hv in Ev'. injection Ev' as <-. rewrite Hx. apply Qabs_wd, Vv'.
    - rewrite <- Ee. destruct (al_skip_nu opts); [injection Ha as <-; reflexivity|].
      cbn [st_last set_st_violations] in Ha. destruct (st_last s); [|injection Ha as <-; reflexivity].
      destruct (_ && _)%bool; [exact Ha | injection Ha as <-; reflexivity].
  Qed.
End Update.

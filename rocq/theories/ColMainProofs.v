(** Proofs about the transcription by collocation: the whole problem. *)
From Coq Require Import String Sorted SetoidList Permutation Lqa.
From Verif Require Import Base BaseProofs UtilModel UtilProofs ExprModel ExprProofs NlpModel NlpSpec NlpProofs SysModel
  SysSpec SysProofs SimModel OcpModel OcpSpec OcpMoreProofs LagModel LagSpec LagProofs DiscModel DiscSpec DiscProofs
  ColSpec ColPolyProofs ColEvalProofs ColProofs ColElementProofs ColIncludeProofs ColAssemblyProofs.
Local Open Scope list_scope.
Local Open Scope nat_scope.

Lemma cbind_res_inv : forall (S A B : Type) (r : res A) (f : A -> cmd S B) st st' b,
    cbind (cres r) f st = (st', Ok b) -> exists a, r = Ok a /\ f a st = (st', Ok b).
Proof. intros S A B r f st st' b H. unfold cbind, cres in H. destruct r as [a|e]; [exists a; split; [reflexivity | exact H] | discriminate]. Qed.
Lemma cbind_inv : forall (S A B : Type) (c : cmd S A) (f : A -> cmd S B) st st' b,
    cbind c f st = (st', Ok b) -> exists a st1, c st = (st1, Ok a) /\ f a st1 = (st', Ok b).
Proof. intros S A B c f st st' b H. unfold cbind in H. destruct (c st) as [st1 [a|e]]; [exists a, st1; split; [reflexivity | exact H] | discriminate]. Qed.

Lemma vec_sum_vals : forall F env es vs e, Forall2 (fun x v => vals F env x [v]) es vs -> vec_sum es = Ok e ->
    exists x, e = [x] /\ (eval F env x == qsum vs)%Q.
Proof.
  intros F env es vs e H E. unfold vec_sum in E.
  assert (G : forall a w, (eval F env a == w)%Q ->
    fold_left (fun acc e => match acc with Ok a => zip_vec OAdd a e | Raise x => Raise x end) es (Ok [a]) = Ok e ->
    exists x, e = [x] /\ (eval F env x == w + qsum vs)%Q).
  { clear E. induction H as [|y v es vs Hy H IH]; intros a w Ha E.
    - injection E as <-. exists a. split; [reflexivity|]. cbn [qsum]. rewrite Ha. ring.
    - inversion Hy as [|y0 v0 l1 l2 Hv Hn]; subst. inversion Hn; subst.
      cbn [fold_left] in E. unfold zip_vec at 2 in E. cbn [length Nat.eqb combine map fst snd] in E.
      destruct (IH (EBin OAdd a y0) (w + v)%Q) as [x [Ex Hx]]; [cbn [eval binop_eval]; rewrite Ha, Hv; reflexivity | exact E|].
      exists x. split; [exact Ex|]. rewrite Hx. cbn [qsum]. ring. }
  destruct (G (EConst 0%Q) 0%Q) as [x [Ex Hx]]; [reflexivity | exact E|]. exists x. split; [exact Ex|]. rewrite Hx. ring.
Qed.

Definition with_objective (s : nlp) (e : list expr) : nlp :=
  mkNlp (nx s) (nx_lb s) (nx_ub s) (ng s) (ng_lb s) (ng_ub s) (np s) e (nsolver s).

Section Main.
  Variables (F : nat -> Q -> Q) (points : nat -> list Q) (dfun : nat -> expr -> expr) (k : method).
  Variables (s : par_syms).
  Hypothesis HF : respects F.
  Hypothesis T : transcribable k.
  Hypothesis Hpts : collocation_points (points (k_degree k)) (k_degree k).
  Hypothesis Hp : length (ps_p s) = n_p k.
  Hypothesis Hth : rows (k_elements k) (n_theta k) (ps_theta s).
  Hypothesis Hx0 : length (ps_x0 s) = n_x k.
  Let m : model := k_model k.
  Let o : ocp := k_problem k.
  Let pts : list Q := points (k_degree k).
  Let K : nat := k_elements k.

  Definition all_rows : nat :=
    length (o_h_initial o) + (list_sum (map (element_rows points k) (seq 0 K)) + (length (o_h_final o) + length (o_h o))).

  Lemma count_rows : K <> 0 -> all_rows = collocation_constraints k.
  Proof.
    intros HK. unfold all_rows, collocation_constraints. fold m o K.
    assert (E : forall gs ws, times_count points k gs ws =
      list_sum (map (fun gw : expr * string => length (imposed (repeat 0%Q (k_degree k)) (snd gw))) (combine gs ws))).
    { intros gs ws. unfold times_count. f_equal. apply map_ext. intros [g w]. cbn [snd]. unfold imposed.
      destruct (String.eqb w "start"); [reflexivity|]. destruct (String.eqb w "end"); [reflexivity|].
      destruct (String.eqb w "default"); [|reflexivity]. rewrite repeat_length. apply Hpts. }
    assert (A : length (d_alg (get_dae_system m)) = match m_y m with [] => 0 | _ => length (m_alg m) end).
    { unfold get_dae_system. cbn [d_alg]. destruct (m_y m); reflexivity. }
    set (body := k_degree k * n_x k + (k_degree k * length (d_alg (get_dae_system m)) +
      (bounded_increments o + (times_count points k (o_g_ineq o) (o_when_ineq o) + times_count points k (o_g_eq o) (o_when_eq o))))).
    assert (S : list_sum (map (element_rows points k) (seq 0 K)) = (K - 1) * n_x k + K * body).
    { destruct K as [|n]; [contradiction|]. cbn [seq map list_sum fold_right]. rewrite <- seq_shift, map_map.
      rewrite (map_ext _ (fun _ => n_x k + body)) by reflexivity.
      assert (L := list_sum_const nat (n_x k + body) (seq 0 n)). unfold list_sum in L. rewrite L, seq_length.
      unfold element_rows at 1. fold m o. fold body. lia. }
    rewrite S. unfold body. rewrite A, !E. change (length (m_x m)) with (n_x k). lia.
  Qed.

  Lemma discretize_ok : forall n0 c0 n1 c1 r,
      collocation_discretize points dfun k s (n0, c0) = ((n1, c1), Ok r) ->
      collocation_shape k r /\ K <> 0 /\ flatten r = seq c0 (length (flatten r)) /\
      let ne := k_elements k in let nx := k_degree k + 1 in let ny := k_degree k in
      let n := add_variables n0 (flatten r) (map BNum (flatten (lower_bounds k ne nx ny))) (map BNum (flatten (upper_bounds k ne nx ny))) in
      forall env q, describes k pts env s r q -> exists l cost,
        n1 = with_objective (add_rows n l) cost /\ (Forall (row_ok F env) l <-> collocated F k q pts) /\ length l = all_rows /\
        (k_direct k = true -> forall v w, o_V o = [v] -> o_S o = [w] ->
           exists e, cost = [e] /\ (eval F env e == trajectory_cost F k q v w)%Q) /\
        (k_direct k = false -> cost = [EConst 0%Q]).
  Proof.
    intros n0 c0 n1 c1 r H. unfold collocation_discretize in H.
    destruct (cbind_inv _ _ _ _ _ _ _ _ H) as [r' [st1 [Hv H1]]]. clear H.
    rewrite collocation_variables_eq in Hv.
    destruct (variables_spec k (k_elements k) (k_degree k + 1) (k_degree k) n0 c0 (tr_bounds _ T)) as [r2 [v [E [Ev [Es Sh]]]]].
    rewrite E in Hv. injection Hv as <- <-. subst v.
    destruct (cbind_res_inv _ _ _ _ _ _ _ _ H1) as [dt [Hdt H2]]. clear H1.
    destruct (cbind_res_inv _ _ _ _ _ _ _ _ H2) as [bps [Hbps H3]]. clear H2. cbv zeta in H3.
    destruct (breakpoints_ok _ _ Hbps) as [HK Eb].
    assert (Edt : dt = step_size k).
    { unfold delta_t in Hdt. destruct (k_elements k =? 0)%nat; [discriminate|]. injection Hdt as <-. reflexivity. }
    subst dt bps. fold (step_size k) in H3.
    change ((o_t_f (k_problem k) - o_t_0 (k_problem k)) / q_of_nat (k_elements k))%Q with (step_size k) in H3.
    destruct (cbind_res_inv _ _ _ _ _ _ _ _ H3) as [f_der [Hder H4]]. clear H3.
    destruct (cbind_res_inv _ _ _ _ _ _ _ _ H4) as [x00 [Hx00 H5]]. clear H4.
    destruct (cbind_inv _ _ _ _ _ _ _ _ H5) as [[] [[na ca] [Hini H6]]]. clear H5.
    destruct (cbind_res_inv _ _ _ _ _ _ _ _ H6) as [zs [Hzs H7]]. clear H6.
    destruct (cbind_inv _ _ _ _ _ _ _ _ H7) as [[] [[nb cb] [Hels H8]]]. clear H7.
    destruct (cbind_res_inv _ _ _ _ _ _ _ _ H8) as [x_f [Hxf H9]]. clear H8.
    destruct (cbind_inv _ _ _ _ _ _ _ _ H9) as [[] [[nc cc] [Hfin H10]]]. clear H9.
    destruct (cbind_res_inv _ _ _ _ _ _ _ _ H10) as [cost [Hcost H11]]. clear H10.
    destruct (cbind_inv _ _ _ _ _ _ _ _ H11) as [[] [st2 [Hobj H12]]]. clear H11.
    injection H12 as -> ->.
    assert (Eobj : n1 = with_objective nc cost).
    { unfold on_nlp in Hobj. cbn [fst snd] in Hobj. unfold set_objective in Hobj.
      destruct (1 <? length cost) eqn:Elc; [discriminate|]. injection Hobj as <- _. reflexivity. }
    clear Hobj. split; [exact Sh|]. split; [exact HK|]. split; [exact Es|].
    cbv zeta. intros env q D.
    destruct (initial_imposes F points k env s r q HF T Sh D Hp Hth Hx0 HK x00 Hx00 _ _ _ _ Hini) as [-> [l1 [-> [C1 L1]]]].
    destruct (imposes_run F env _ _ (element_ok F points k q) (element_rows points k) (seq 0 (k_elements k))
                (fun i _ => include_element_imposes F points dfun k env s r q HF T Hpts Sh D Hp Hth Hx0 HK zs f_der Hder Hzs i)
                _ _ _ _ Hels) as [-> [l2 [-> [C2 L2]]]].
    assert (Hlast : exists z, nth_error zs (K - 1) = Some z /\ last_of (z_x z) = Ok x_f).
    { destruct (last_of zs) as [z|] eqn:Ez; [|discriminate]. exists z. split; [|exact Hxf].
      destruct (last_of_ok _ _ _ Ez) as [l' El]. assert (Lz := results_length points k s r zs Hzs).
      rewrite El, app_length in Lz. simpl in Lz. fold K in Lz. rewrite El, nth_error_app2 by lia.
      replace (K - 1 - length l') with 0 by lia. reflexivity. }
    destruct Hlast as [z [Hz Hzx]].
    destruct (result_at F points k env s r q HF T Hpts Sh D Hp Hth Hx0 HK zs Hzs _ _ Hz) as [_ [e [_ [_ Ho]]]].
    assert (Vf := last_state F points k env s q T Hpts Hp Hx0 HK _ _ _ Ho Hzx).
    destruct (final_imposes F points k env s r q HF T Sh D Hp Hth Hx0 HK x_f Vf _ _ _ _ Hfin) as [-> [l3 [-> [C3 L3]]]].
    exists (l1 ++ (l2 ++ l3)), cost. rewrite Eobj, !add_rows_app.
    split; [reflexivity|]. split; [|split; [|split]].
    - unfold pts. rewrite (collocated_elements F points k s q Hp Hx0 HK), !Forall_app, C1, C2, C3. reflexivity.
    - rewrite !app_length, L1, L2, L3. reflexivity.
    - intros Hd v w EV ES. unfold collocation_cost in Hcost. rewrite Hd in Hcost.
      destruct (res_map (fun z => last_of (z_s z)) zs) as [ss|] eqn:Ess; [|discriminate].
      destruct (vec_sum ss) as [sv|] eqn:Esv; [|discriminate].
      destruct (make_function _ _) as [f|] eqn:Ef; [|discriminate]. destruct (call f _) as [fv|] eqn:Efv; [|discriminate].
      assert (Vs : Forall2 (fun x v => vals F env x [v]) ss (map (fun el => eval F (at_point k q el 1%Q) w) (seq 0 K))).
      { pose proof (res_map_ok _ _ _ _ _ Ess) as R. assert (Lz := results_length points k s r zs Hzs).
        apply Forall2_nth_intro; [rewrite map_length, seq_length, <- (Forall2_len _ _ _ _ _ R); exact Lz|].
        intros i a b Ha Hb. destruct (Forall2_nth' _ _ _ _ _ _ _ R Ha) as [zi [Hzi Hli]].
        rewrite nth_error_map in Hb. destruct (nth_error (seq 0 K) i) as [j|] eqn:Ej; [|discriminate].
        apply nth_seq_inv in Ej. destruct Ej as [Hi ->]. injection Hb as <-.
        destruct (result_at F points k env s r q HF T Hpts Sh D Hp Hth Hx0 HK zs Hzs _ _ Hzi) as [_ [e' [_ [_ Hoi]]]].
        pose proof (oc_s _ _ _ _ _ _ _ Hoi) as Hs. fold o in Hs. rewrite ES in Hs.
        destruct (last_of_ok _ _ _ Hli) as [l' El]. rewrite El in Hs.
        apply (Forall2_last _ _ _ _ _ _ 0%Q) in Hs. exact Hs. }
      destruct (vec_sum_vals _ _ _ _ _ Vs Esv) as [sx [-> Esx]].
      assert (Vv : vals F env fv (map (eval F (at_point k q (K - 1) 1%Q)) (o_V o))).
      { refine (call_blocks F env _ _ _ _ _ _ HF (cost_NoDup k T) Ef Efv _).
        apply Forall2_cons; [|apply Forall2_cons; [|constructor]].
        - rewrite (point_x k q T _ 1%Q). exact Vf.
        - rewrite (point_p points k env s r q T D _ 1%Q). apply (p_vals F points k env s r q T Sh D Hp). }
      rewrite EV in Vv. inversion Vv as [|fx v0 l4 l5 Hfx Hn]; subst. inversion Hn; subst.
      injection Hcost as <-. eexists. split; [reflexivity|].
      cbn [eval binop_eval fst snd]. rewrite Hfx, Esx. reflexivity.
    - intros Hd. unfold collocation_cost in Hcost. rewrite Hd in Hcost.
      destruct (res_map _ zs) as [ss|]; [|discriminate]. destruct (vec_sum ss); [|discriminate]. injection Hcost as <-. reflexivity.
  Qed.
End Main.

(** ** Bounds *)

Lemma within_repeat : forall F env lo hi (l : list (list sym)), length lo = length hi -> Forall (fun v => length v = length lo) l ->
    (within F env (map env (concat l)) (map BNum (concat (repeat lo (length l)))) (map BNum (concat (repeat hi (length l)))) <->
     forall j i v a b, entry2 l j i = Some v -> nth_error lo i = Some a -> nth_error hi i = Some b ->
       ext_le a (Fin (env v)) /\ ext_le (Fin (env v)) b).
Proof.
  intros F env lo hi l L H. induction H as [|w l Hw H IH].
  - split; [intros _ j i v a b E; unfold entry2 in E; destruct j; discriminate|].
    intros _ i q a b E. destruct i; discriminate.
  - cbn [length repeat concat]. rewrite !map_app, within_app, IH by (rewrite !map_length; congruence). split.
    + intros [A B] j i v a b E Ha Hb. destruct j as [|j].
      * unfold entry2 in E. cbn [nth_error] in E. apply (A i (env v) (BNum a) (BNum b)); rewrite nth_error_map.
        -- rewrite E. reflexivity.
        -- rewrite Ha. reflexivity.
        -- rewrite Hb. reflexivity.
      * apply (B j i v a b E Ha Hb).
    + intros A. split.
      * intros i q a b E Ha Hb. rewrite nth_error_map in E, Ha, Hb.
        destruct (nth_error w i) as [v|] eqn:Ev; [|discriminate]. destruct (nth_error lo i) as [x|] eqn:Ex; [|discriminate].
        destruct (nth_error hi i) as [y|] eqn:Ey; [|discriminate]. injection E as <-. injection Ha as <-. injection Hb as <-.
        apply (A 0 i v x y); [unfold entry2; cbn [nth_error]; exact Ev | exact Ex | exact Ey].
      * intros j i v a b. apply (A (S j)).
Qed.
Lemma concat_grid_repeat : forall (A : Type) n d (l : list (list (list A))) (B : Type) (lo : list B), grid n d (length lo) l ->
    concat (concat (repeat (repeat lo d) n)) = concat (repeat lo (length (concat l))) /\
    Forall (fun v => length v = length lo) (concat l).
Proof.
  intros A n d l B lo [<- H]. induction H as [|w l Hw H IH]; [split; [reflexivity | constructor]|].
  destruct IH as [E G]. destruct Hw as [Lw Gw]. cbn [length repeat concat]. split.
  - rewrite app_length, repeat_app, !concat_app, E, Lw. reflexivity.
  - apply Forall_app. split; assumption.
Qed.
Lemma entry_concat : forall (A : Type) (l : list (list (list A))) (P : nat -> A -> Prop),
    (forall j i v, entry2 (concat l) j i = Some v -> P i v) <-> (forall el j i v, entry l el j i = Some v -> P i v).
Proof.
  intros A l P.
  assert (E1 : (forall j i v, entry2 (concat l) j i = Some v -> P i v) <-> (forall w, In w (concat l) -> forall i v, nth_error w i = Some v -> P i v)).
  { unfold entry2. split.
    - intros H w Hw i v Hv. apply In_nth_error in Hw. destruct Hw as [j Hj]. apply (H j i v). rewrite Hj. exact Hv.
    - intros H j i v E. destruct (nth_error (concat l) j) as [w|] eqn:Ew; [|discriminate]. apply (H w (nth_error_In _ _ Ew) i v E). }
  rewrite E1. clear E1. unfold entry. split.
  - intros H el j i v E. destruct (nth_error l el) as [r|] eqn:Er; [|discriminate]. destruct (nth_error r j) as [w|] eqn:Ew; [|discriminate].
    apply (H w); [|exact E]. apply in_concat. exists r. split; [apply (nth_error_In _ _ Er) | apply (nth_error_In _ _ Ew)].
  - intros H w Hw i v Hv. apply in_concat in Hw. destruct Hw as [r [Hr Hw]].
    apply In_nth_error in Hr. destruct Hr as [el Hel]. apply In_nth_error in Hw. destruct Hw as [j Hj].
    apply (H el j i v). rewrite Hel, Hj. exact Hv.
Qed.

Lemma within_grid : forall F env lo hi n d (l : list (list (list sym))), length hi = length lo -> grid n d (length lo) l ->
    (within F env (map env (concat (concat l))) (map BNum (concat (concat (repeat (repeat lo d) n)))) (map BNum (concat (concat (repeat (repeat hi d) n)))) <->
     forall el j i v a b, entry l el j i = Some v -> nth_error lo i = Some a -> nth_error hi i = Some b ->
       ext_le a (Fin (env v)) /\ ext_le (Fin (env v)) b).
Proof.
  intros F env lo hi n d l L G. destruct (concat_grid_repeat _ _ _ _ _ lo G) as [E1 G1].
  assert (G2 : grid n d (length hi) l) by (rewrite L; exact G). destruct (concat_grid_repeat _ _ _ _ _ hi G2) as [E2 _].
  rewrite E1, E2, within_repeat by (congruence || assumption).
  pose proof (entry_concat _ l (fun i v => forall a b, nth_error lo i = Some a -> nth_error hi i = Some b ->
       ext_le a (Fin (env v)) /\ ext_le (Fin (env v)) b)) as X. cbn beta in X.
  split; [intros H el j i v a b E; revert a b; apply (proj1 X) with (el := el) (j := j); [intros; apply (H j0 i0 v0); assumption | exact E]|].
  intros H j i v a b E. revert a b. apply (proj2 X) with (j := j); [intros; apply (H el j0 i0 v0); assumption | exact E].
Qed.

Lemma bounds_iff : forall F env k ne nx ny r, well_bounded (k_problem k) -> shaped k ne nx ny r ->
    (within F env (map env (flatten r)) (map BNum (flatten (lower_bounds k ne nx ny))) (map BNum (flatten (upper_bounds k ne nx ny))) <->
     bounded k env r).
Proof.
  intros F env k ne nx ny r [A _] [Sx [Sy [Su [Se [Sp St]]]]].
  destruct A as [[X1 [X2 _]] [[Y1 Y2] [[U1 [U2 _]] [[P1 P2] [[T1 T2] _]]]]].
  unfold n_x, n_y, n_u, n_p_opt, n_theta_opt, k_model in *. unfold flatten, lower_bounds, upper_bounds, repeated. cbn [r_x r_y r_u r_eta r_p r_theta].
  rewrite <- X1 in Sx. rewrite <- Y1 in Sy. rewrite <- U1 in Su. rewrite <- P1 in Sp. rewrite <- T1 in St.
  assert (Lg : forall (n d : nat) (lo : list ext) (l : list (list (list sym))), grid n d (length lo) l ->
           length (map env (concat (concat l))) = length (map BNum (concat (concat (repeat (repeat lo d) n))))).
  { intros n d lo l G. rewrite !map_length. rewrite (grid_concat_length _ _ _ _ _ G), (grid_concat_length _ _ _ _ _ (grid_repeat _ n d lo)). reflexivity. }
  rewrite !map_app.
  rewrite within_app by (apply Lg; [exact Sx || (rewrite X2, <- X1; exact Sx)]).
  rewrite within_app by (apply Lg; [exact Sy || (rewrite Y2, <- Y1; exact Sy)]).
  rewrite within_app by (apply Lg; [exact Su || (rewrite U2, <- U1; exact Su)]).
  rewrite within_app by (rewrite !map_length, repeat_length; exact Se).
  rewrite within_app by (rewrite !map_length; congruence).
  rewrite (within_grid F env _ _ _ _ _ (eq_trans X2 (eq_sym X1)) Sx), (within_grid F env _ _ _ _ _ (eq_trans Y2 (eq_sym Y1)) Sy),
    (within_grid F env _ _ _ _ _ (eq_trans U2 (eq_sym U1)) Su).
  destruct St as [Lt Gt]. rewrite <- Lt, within_repeat by (congruence || assumption).
  assert (We : within F env (map env (r_eta r)) (map BNum (repeat NInf (n_eta k))) (map BNum (repeat PInf (n_eta k)))).
  { intros i v a b _ Ha Hb. rewrite nth_error_map in Ha, Hb.
    destruct (nth_error (repeat NInf (n_eta k)) i) as [x|] eqn:Ex; [|discriminate].
    destruct (nth_error (repeat PInf (n_eta k)) i) as [y|] eqn:Ey; [|discriminate].
    apply nth_error_In, repeat_spec in Ex, Ey. subst x y. injection Ha as <-. injection Hb as <-. split; exact I. }
  assert (Wp : within F env (map env (r_p r)) (map BNum (o_p_min (k_problem k))) (map BNum (o_p_max (k_problem k))) <->
     forall i v a b, nth_error (r_p r) i = Some v -> nth_error (o_p_min (k_problem k)) i = Some a -> nth_error (o_p_max (k_problem k)) i = Some b ->
       ext_le a (Fin (env v)) /\ ext_le (Fin (env v)) b).
  { split.
    - intros H i v a b Hv Ha Hb. apply (H i (env v) (BNum a) (BNum b)); rewrite nth_error_map; [rewrite Hv | rewrite Ha | rewrite Hb]; reflexivity.
    - intros H i v a b Hv Ha Hb. rewrite nth_error_map in Hv, Ha, Hb.
      destruct (nth_error (r_p r) i) as [v'|] eqn:E1; [|discriminate]. destruct (nth_error (o_p_min _) i) as [a'|] eqn:E2; [|discriminate].
      destruct (nth_error (o_p_max _) i) as [b'|] eqn:E3; [|discriminate]. injection Hv as <-. injection Ha as <-. injection Hb as <-.
      apply (H i v' a' b' E1 E2 E3). }
  rewrite Wp. split.
  - intros [A1 [A2 [A3 [_ [A5 A6]]]]]. constructor; assumption.
  - intros [A1 A2 A3 A5 A6]. tauto.
Qed.

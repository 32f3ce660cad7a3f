(** The pond: a relaxed problem to which the theorems on the augmented Lagrangian method apply. *)
From Coq Require Import String Qabs Lqa.
From Verif Require Import Base BaseProofs UtilModel ExprModel ExprProofs NlpModel SysModel SysSpec
   OcpModel OcpSpec SimModel LagModel LagSpec DiscModel DiscSpec ColSpec ColTopProofs AugModel AugSpec
   AugLoopProofs AugRunProofs AugRelaxProofs AugMoreProofs.
Local Open Scope list_scope.

Definition pond_o : ocp := Eval vm_compute in
  match pond_with [] as x return (match x with Ok _ => ocp | Raise _ => unit end) with Ok k => k | Raise _ => tt end.
Definition pond_s : relaxing := Eval vm_compute in
  match pond_relaxed [] whole as x return (match x with Ok _ => relaxing | Raise _ => unit end) with Ok k => k | Raise _ => tt end.
Definition pond_a : augmented := Eval vm_compute in
  match pond_method [] whole as x return (match x with Ok _ => augmented | Raise _ => unit end) with Ok k => k | Raise _ => tt end.
Definition pond_prepared : ocp := Eval vm_compute in k_problem (ag_method pond_a).

Lemma pond_o_is : pond_with [] = Ok pond_o. Proof. vm_compute. reflexivity. Qed.
Lemma pond_s_is : pond_relaxed [] whole = Ok pond_s. Proof. vm_compute. reflexivity. Qed.
Lemma pond_a_is : pond_method [] whole = Ok pond_a. Proof. vm_compute. reflexivity. Qed.

Lemma same_expr_ok : forall a b, same_expr a b = true <-> a = b.
Proof. intros a b. unfold same_expr. destruct (expr_eq_dec a b); split; intros H; congruence. Qed.

Lemma pond_relaxes : relax same_expr radau_two (pond_options "bounded-increase" false 3) whole (start_relaxing pond_o 100) = (pond_s, Ok tt).
Proof. vm_compute. reflexivity. Qed.
Lemma pond_prepares : direct_prepare radau_two 1 60 61 200 (rx_problem pond_s) = (pond_prepared, Ok tt).
Proof. vm_compute. reflexivity. Qed.

Lemma pond_old : older pond_o 100.
Proof.
  split.
  - intros e v He Hm. vm_compute in He. unfold mentions in Hm.
    repeat (destruct He as [<-|He]; [cbn in Hm; intuition lia|]). contradiction.
  - intros v Hv. vm_compute in Hv. intuition lia.
Qed.
Lemma radau_distinct : distinct (radau_two 2).
Proof. unfold distinct. intros i j Hi Hj H. cbn [length radau_two] in Hi, Hj. destruct i as [|[|i]], j as [|[|j]]; try lia; vm_compute in H; discriminate. Qed.

Lemma pond_carries : forall F, carries F (radau_two 2) pond_a [] [].
Proof.
  intros F.
  assert (R := relaxed_carries F same_expr radau_two (pond_options "bounded-increase" false 3) whole pond_o 100 pond_s
             1 60 61 200 pond_prepared (ag_method pond_a) (ag_variables pond_a) same_expr_ok).
  apply R; clear R; try reflexivity.
  - repeat constructor; cbn; tauto.
  - repeat constructor; cbn; tauto.
  - constructor.
  - exact pond_old.
  - cbn. lia.
  - exact radau_distinct.
  - left. reflexivity.
  - apply nodup_ok. vm_compute. reflexivity.
Qed.
Lemma pond_transcribable : transcribable (ag_method pond_a).
Proof.
  constructor.
  - vm_compute. lia.
  - vm_compute. reflexivity.
  - split; [unfold aligned; vm_compute; repeat split|].
    repeat (split; [apply in_order_ok; vm_compute; reflexivity|]). apply in_order_ok; vm_compute; reflexivity.
  - apply nodup_ok. vm_compute. reflexivity.
  - split; [|split].
    + split; intros a Ha; vm_compute in Ha |- *; tauto.
    + apply nodup_ok. vm_compute. reflexivity.
    + apply nodup_ok. vm_compute. reflexivity.
  - split; [reflexivity|]. intros v oe H. vm_compute in H.
    repeat (destruct H as [H|H]; [injection H as _ <-; eexists; reflexivity|]). destruct H.
  - reflexivity.
  - reflexivity.
  - discriminate.
Qed.
Lemma pond_sized : forall rule improve n, well_sized pond_a (start_aug (pond_options rule improve n) pond_s None).
Proof. intros. apply start_sized; try reflexivity. left. reflexivity. Qed.
Lemma pond_given : well_given pond_a [] [] None None.
Proof. split; [reflexivity|]. intros el _. reflexivity. Qed.
Lemma pond_solved : forall calls raw, pond_solve calls = Ok raw -> length raw = collocation_size (ag_method pond_a).
Proof. intros calls raw H. unfold pond_solve in H. injection H as <-. reflexivity. Qed.

Lemma pond_fits : exists a s, pond_method [] whole = Ok a /\ pond_relaxed [] whole = Ok s /\
    relaxed_equations a = [EBin OSub (EVar 20) (EVar 10)] /\ k_elements (ag_method a) = 2 /\
    transcribable (ag_method a) /\ collocation_points (radau_two (k_degree (ag_method a))) (k_degree (ag_method a)) /\
    (forall F, carries F (radau_two (k_degree (ag_method a))) a [] []) /\
    (forall rule improve n, well_sized a (start_aug (pond_options rule improve n) s None)) /\
    well_given a [] [] None None /\
    (forall calls raw, pond_solve calls = Ok raw -> length raw = collocation_size (ag_method a)).
Proof.
  exists pond_a, pond_s. split; [exact pond_a_is|]. split; [exact pond_s_is|]. split; [reflexivity|]. split; [reflexivity|].
  split; [exact pond_transcribable|]. split; [exact radau_two_points|]. split; [exact pond_carries|].
  split; [exact pond_sized|]. split; [exact pond_given | exact pond_solved].
Qed.

(** ** The order of multipliers *)

Definition mixed_o : ocp := Eval vm_compute in
  match pond_with steady as x return (match x with Ok _ => ocp | Raise _ => unit end) with Ok k => k | Raise _ => tt end.
Definition mixed_s : relaxing := Eval vm_compute in
  match pond_relaxed steady mixed as x return (match x with Ok _ => relaxing | Raise _ => unit end) with Ok k => k | Raise _ => tt end.

Lemma Forall2_hd_local : forall (A : Type) (d : A) (P : A -> A -> Prop) l l', Forall2 P l l' -> l <> [] -> P (hd d l) (hd d l').
Proof. intros A d P l l' H Hn. destruct H; [contradiction Hn; reflexivity | exact H]. Qed.
Lemma mixed_order : exists o s, pond_with steady = Ok o /\ pond_relaxed steady mixed = Ok s /\
    older o 100 /\ rq_equalities mixed <> [] /\ rq_states mixed = true /\
    relaxes (fun _ x => x) (radau_two 2) 1 (rx_eq s ++ rx_alg s) o s /\
    ~ relaxes (fun _ x => x) (radau_two 2) 1 (rx_alg s ++ rx_eq s) o s.
Proof.
  exists mixed_o, mixed_s. split; [vm_compute; reflexivity|]. split; [vm_compute; reflexivity|].
  assert (Old : older mixed_o 100).
  { split.
    - intros e v He Hm. vm_compute in He. unfold mentions in Hm.
      repeat (destruct He as [<-|He]; [cbn in Hm; intuition lia|]). contradiction.
    - intros v Hv. vm_compute in Hv. intuition lia. }
  split; [exact Old|]. split; [discriminate|]. split; [reflexivity|]. split.
  - assert (R := relax_ok (fun _ x => x) same_expr radau_two (pond_options "bounded-increase" false 3) mixed mixed_o 100 mixed_s same_expr_ok).
    destruct R as [ga [ge [x [y [Pa [_ [_ [_ [_ [_ [R [Ea Ee]]]]]]]]]]]]; try reflexivity.
    + repeat constructor; cbn; tauto.
    + repeat constructor; cbn; tauto.
    + repeat constructor; cbn; tauto.
    + exact Old.
    + cbn. lia.
    + exact radau_distinct.
    + unfold picks in Pa. cbn [wanted mixed rq_algebraic map] in Pa. destruct ga; [|discriminate].
      rewrite Ea, Ee. exact R.
  - intros R. pose proof (re_cost _ _ _ _ _ _ R mixed_env) as Hc.
    apply (Forall2_hd_local _ (EConst 0%Q)) in Hc; [|discriminate]. vm_compute in Hc. discriminate.
Qed.

(** ** Runs *)

Lemma pond_increase : used (pond_run "bounded-increase" false [1%Q] 3) =
    ([([1%Q], [(0, [0%Q; 0%Q]); (1, [0%Q; 0%Q])]);
      ([4%Q], [(0, [(-1)%Q; (-1)%Q]); (1, [(-1)%Q; (-1)%Q])]);
      ([10%Q], [(0, [0%Q; 0%Q]); (1, [0%Q; 0%Q])])],
     Some ([10%Q], [(0, [0%Q; 0%Q]); (1, [0%Q; 0%Q])])).
Proof. vm_compute. reflexivity. Qed.
Lemma pond_primal : used (pond_run "primal" false [1%Q] 3) =
    ([([1%Q], [(0, [0%Q; 0%Q]); (1, [0%Q; 0%Q])]);
      ([1%Q], [(0, [(-1)%Q; (-1)%Q]); (1, [(-1)%Q; (-1)%Q])]);
      ([1%Q], [(0, [(-3 # 4)%Q; (-3 # 4)%Q]); (1, [(-3 # 4)%Q; (-3 # 4)%Q])])],
     Some ([1%Q], [(0, [(-3 # 4)%Q; (-3 # 4)%Q]); (1, [(-3 # 4)%Q; (-3 # 4)%Q])])).
Proof. vm_compute. reflexivity. Qed.
Lemma pond_improving : used (pond_run "primal" true [1%Q] 3) =
    ([([1%Q], [(0, [0%Q; 0%Q]); (1, [0%Q; 0%Q])]);
      ([1%Q], [(0, [(-1)%Q; (-1)%Q]); (1, [(-1)%Q; (-1)%Q])]);
      ([4%Q], [(0, [(-3 # 4)%Q; (-1)%Q]); (1, [(-3 # 4)%Q; (-1)%Q])])],
     Some ([4%Q], [(0, [(-3 # 4)%Q; (-1)%Q]); (1, [(-3 # 4)%Q; (-1)%Q])])).
Proof. vm_compute. reflexivity. Qed.
Lemma pond_returned : used (pond_run "primal" true [1%Q] 2) =
    ([([1%Q], [(0, [0%Q; 0%Q]); (1, [0%Q; 0%Q])]);
      ([1%Q], [(0, [(-1)%Q; (-1)%Q]); (1, [(-1)%Q; (-1)%Q])])],
     Some ([4%Q], [(0, [(-3 # 4)%Q; (-1)%Q]); (1, [(-3 # 4)%Q; (-1)%Q])])).
Proof. vm_compute. reflexivity. Qed.
Lemma pond_lowered : map fst (fst (used (pond_run "bounded-increase" false [20%Q] 2))) = [[20%Q]; [10%Q]].
Proof. vm_compute. reflexivity. Qed.
Lemma pond_unknown : exists s calls, pond_run "fastest" false [1%Q] 3 = Ok ((s, calls), Raise ValueError) /\
    length calls = 1 /\ st_last s = None /\ option_map lowest (st_nu_tilde s) = Some [(0, [(-1)%Q; (-1)%Q]); (1, [(-1)%Q; (-1)%Q])].
Proof. eexists. eexists. split; [vm_compute; reflexivity|]. split; [reflexivity|]. split; vm_compute; reflexivity. Qed.
Lemma pond_equalities : forall points opts, exists o s e, pond_with steady = Ok o /\
    relax same_expr points opts (mkRequest None None [0] false) (start_relaxing o 100) = (s, Raise e).
Proof.
  intros points opts.
  assert (H : exists s e, relax same_expr points opts (mkRequest None None [0] false) (start_relaxing mixed_o 100) = (s, Raise e)).
  { apply all_and_equalities.
    - exact same_expr_ok.
    - repeat constructor; cbn; tauto.
    - repeat constructor; cbn; tauto.
    - reflexivity.
    - reflexivity.
    - reflexivity.
    - discriminate. }
  destruct H as [s [e H]]. exists mixed_o, s, e. split; [vm_compute; reflexivity | exact H].
Qed.

Lemma guess_of_another : exists o s', guessed_pond = Ok o /\ m_y (o_model o) = [20; 21] /\ o_y_guess o = Some [7; 9]%Q /\
    relax_algebraic_equations same_expr (pond_options "constant" false 3) [0] [1] (start_relaxing o 100) = (s', Ok tt) /\
    m_u (o_model (rx_problem s')) = [30; 21] /\ o_u_guess (rx_problem s') = Some [1; 7]%Q.
Proof.
  destruct guessed_pond as [o|] eqn:E; [|vm_compute in E; discriminate].
  destruct (relax_algebraic_equations same_expr (pond_options "constant" false 3) [0] [1] (start_relaxing o 100)) as [s' r] eqn:R.
  assert (V : exists t, guessed_pond = Ok t /\ m_y (o_model t) = [20; 21] /\ o_y_guess t = Some [7; 9]%Q /\
    exists u, relax_algebraic_equations same_expr (pond_options "constant" false 3) [0] [1] (start_relaxing t 100) = (u, Ok tt) /\
      m_u (o_model (rx_problem u)) = [30; 21] /\ o_u_guess (rx_problem u) = Some [1; 7]%Q).
  { vm_compute. eexists. split; [reflexivity|]. split; [reflexivity|]. split; [reflexivity|]. eexists. split; [reflexivity|]. split; reflexivity. }
  destruct V as [t [Ht [Hy [Hg [u [Hu [U G]]]]]]]. rewrite E in Ht. injection Ht as <-. rewrite R in Hu. injection Hu as -> ->.
  exists o, u. repeat match goal with |- _ /\ _ => split end; assumption || reflexivity.
Qed.

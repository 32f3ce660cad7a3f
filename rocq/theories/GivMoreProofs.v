(** More proofs about the values of a trajectory at given times. *)
From Coq Require Import String Lqa Sorting.Sorted SetoidList.
From Verif Require Import Base BaseProofs UtilModel ExprModel ExprProofs NlpModel SysModel SysSpec SimModel OcpModel LagModel
  DiscModel DiscSpec DiscProofs ColSpec ColPolyProofs ColEvalProofs ColElementProofs ColAssemblyProofs ColMainProofs ShoModel ShoSpec
  ColTopProofs ShoShotProofs ShoProofs ShoMoreProofs GivModel GivSpec GivProofs.
Local Open Scope list_scope.
Local Open Scope nat_scope.

(** ** Where simulations begin *)

Section Flow.
  Variables (F : nat -> Q -> Q) (integrate : icall -> res (list Q * list Q)) (defaults : options)
    (ty : string) (label : nat -> nat -> string) (k : method) (h : shooting) (el : nat).
  Hypothesis HC : composes integrate defaults ty label k h el.

  Lemma course_from : forall ts vs i j t_0 x_0 t v, (forall t', In t' ts -> ~ (t' == t_0)%Q) ->
      run_to integrate defaults ty label k h el j t_0 x_0 t = Ok v ->
      course integrate defaults ty label k h el false i t (fst v) ts vs ->
      course integrate defaults ty label k h el true i t_0 x_0 ts vs.
  Proof.
    induction ts as [|t' ts IH]; intros [|v' vs] i j t_0 x_0 t v N R H; try contradiction; [exact I|].
    cbn [course] in *. destruct H as [H1 H2].
    assert (R' : run_to integrate defaults ty label k h el i t_0 x_0 t' = Ok v').
    { apply (HC j i t_0 x_0 t t' v v'); [apply N; left; reflexivity | exact R | exact H1]. }
    split; [exact R'|]. apply (IH vs (S i) i t_0 x_0 t' v'); [intros t'' Ht; apply N; right; exact Ht | exact R' | exact H2].
  Qed.
  Lemma course_restarts : forall ts vs i t_0 x_0, (forall t', In t' ts -> ~ (t' == t_0)%Q) ->
      course integrate defaults ty label k h el false i t_0 x_0 ts vs ->
      course integrate defaults ty label k h el true i t_0 x_0 ts vs.
  Proof.
    intros [|t ts] [|v vs] i t_0 x_0 N H; try contradiction; [exact I|]. cbn [course] in *. destruct H as [H1 H2].
    split; [exact H1|]. apply (course_from ts vs (S i) i t_0 x_0 t v); [intros t' Ht; apply N; right; exact Ht | exact H1 | exact H2].
  Qed.
  Lemma w_C86_flow : forall groups w x y u f,
      given_values F integrate defaults ty label k h el false groups w x y u f ->
      given_values F integrate defaults ty label k h el true groups w x y u f.
  Proof.
    intros groups w x y u f [[ts [vs [S1 [S2 [C R]]]]]]. constructor. exists ts, vs. split; [exact S1|]. split; [exact S2|].
    split; [|exact R]. apply course_restarts; [|exact C]. intros t' Ht. apply (proj1 (S2 t')). apply InA_alt. exists t'. split; [reflexivity | exact Ht].
  Qed.
End Flow.

(** ** Refusals *)

Section Refusals.
  Variables (buildable : optval -> string -> dict string (list expr) -> options -> bool)
    (label : nat -> nat -> string) (defaults : options) (ty : string) (k : method)
    (bps : list Q) (x u : list (list (list sym))) (p : list expr) (thetas : list (list expr))
    (functions : list (list func)) (start : bool).

  Lemma element_refused : forall el w st st' r,
      among (wd_y w) (wd_t0 w) = true \/ (k_direct k = false /\ among (wd_u w) (wd_t0 w) = true) \/
      (exists l, In l (wd_f w) /\ (l = None \/ among l (wd_t0 w) = true)) ->
      shoot_element buildable label defaults ty k bps x u p thetas functions start (el, w) st <> (st', Ok r).
  Proof.
    intros el w st st' r HR H. unfold shoot_element in H.
    destruct (cbind_res_inv _ _ _ _ _ _ _ _ H) as [x0 [Hx H1]]. clear H.
    destruct (cbind_res_inv _ _ _ _ _ _ _ _ H1) as [ta [Ha H2]]. clear H1.
    destruct (cbind_res_inv _ _ _ _ _ _ _ _ H2) as [tb [Hbb H3]]. clear H2.
    destruct (cbind_res_inv _ _ _ _ _ _ _ _ H3) as [d [Hd H4]]. clear H3.
    destruct (cbind_res_inv _ _ _ _ _ _ _ _ H4) as [f_u [Hfu H5]]. clear H4. cbv zeta in H5.
    destruct (cguard_inv _ _ _ _ _ _ _ _ H5) as [Hg H6]. clear H5.
    destruct (cbind_res_inv _ _ _ _ _ _ _ _ H6) as [u_el [Hu H7]]. clear H6.
    destruct (cbind_res_inv _ _ _ _ _ _ _ _ H7) as [u_0 [Hu0 H8]]. clear H7.
    destruct (cbind_res_inv _ _ _ _ _ _ _ _ H8) as [f_ts [Hft H9]]. clear H8 H9.
    rewrite <- among_asked in Hg, Hu0.
    destruct HR as [HR | [[Ed HR] | [l [Hl HR]]]].
    - rewrite HR in Hg. discriminate.
    - rewrite HR, Ed in Hu0. discriminate.
    - clear -Hft Hl HR. revert f_ts Hft. induction (wd_f w) as [|l0 ls IH]; intros f_ts Hft; [destruct Hl|].
      cbn [res_map] in Hft. destruct Hl as [-> | Hl].
      + destruct HR as [-> | HR]; [discriminate|]. destruct l as [l|]; [|discriminate]. rewrite among_some in HR. rewrite HR in Hft. discriminate.
      + match type of Hft with match ?y with _ => _ end = _ => destruct y; [|discriminate] end.
        destruct (res_map _ ls) as [l'|]; [|discriminate]. apply (IH Hl l' eq_refl).
  Qed.
  Lemma w_C86_refused : forall demands el w st st' r, In (el, w) demands ->
      among (wd_y w) (wd_t0 w) = true \/ (k_direct k = false /\ among (wd_u w) (wd_t0 w) = true) \/
      (exists l, In l (wd_f w) /\ (l = None \/ among l (wd_t0 w) = true)) ->
      shoot_elements buildable label defaults ty k bps x u p thetas functions start demands st <> (st', Ok r).
  Proof.
    intros demands el w st st' r Hin HR H. unfold shoot_elements in H.
    destruct (cbind_inv _ _ _ _ _ _ _ _ H) as [out [st1 [H1 _]]]. clear H. revert st st1 out H1.
    induction demands as [|ew l IH]; intros st st1 out H1; [destruct Hin|]. cbn [ctraverse] in H1.
    destruct (cbind_inv _ _ _ _ _ _ _ _ H1) as [b [st2 [E1 E2]]]. clear H1.
    destruct (cbind_inv _ _ _ _ _ _ _ _ E2) as [out' [st3 [E3 _]]]. clear E2.
    destruct Hin as [-> | Hin]; [exact (element_refused el w st st2 b HR E1) | exact (IH Hin _ _ _ E3)].
  Qed.
End Refusals.

(** ** Reading the controls of an indirect method *)

Lemma w_C86_indirect_controls_refuted : forall buildable label defaults ty k points bps x u p thetas demands st st' r,
    k_direct k = false -> k_degree_control k = 1 -> k_elements k <> 0 -> breakpoints k = Ok bps ->
    control_reading bps (interpolation_times (step_size k) bps (control_taus points k)) (k_elements k) = Ok demands ->
    shoot_elements buildable label defaults ty k bps x u p thetas [] false demands st <> (st', Ok r).
Proof.
  intros buildable label defaults ty k points bps x u p thetas demands st st' r Ed Ec N Hb Hd.
  unfold control_reading in Hd. pose proof (res_map_ok _ _ _ _ _ Hd) as R. clear Hd.
  assert (H0 : nth_error (seq 0 (k_elements k)) 0 = Some 0) by (apply nth_seq; lia).
  destruct (Forall2_nth _ _ _ _ _ _ _ R H0) as [ew [Hew E]]. cbn beta in E.
  destruct (at_index (interpolation_times _ _ _) 0 IndexError) as [ts|] eqn:Et; [|discriminate].
  destruct (at_index bps 0 IndexError) as [a|] eqn:Ea; [|discriminate].
  destruct (at_index bps (0 + 1) IndexError) as [b|] eqn:Eb; [|discriminate]. injection E as <-.
  apply (w_C86_refused _ _ _ _ _ _ _ _ _ _ _ _ _ _ _ _ _ _ (nth_error_In _ _ Hew)).
  right. left. split; [exact Ed|]. cbn [wd_u wd_t0].
  apply at_index_ok in Et, Ea. unfold interpolation_times, control_taus in Et. rewrite Ec in Et. cbn [Nat.eqb] in Et.
  destruct bps as [|a' bps]; [discriminate|]. injection Ea as ->.
  destruct bps as [|b' bps]; [discriminate|]. cbn [removelast map nth_error] in Et. injection Et as <-.
  cbn [among existsb]. rewrite orb_false_r. apply Qeq_bool_iff. ring.
Qed.

(** ** The example *)

Definition cart_bps : list Q := Eval vm_compute in match breakpoints limited_k with Ok l => l | Raise _ => [] end.
Definition cart_fns : list func := Eval vm_compute in
  match element_functions limited_k cart_bps cart_group with Ok l => l | Raise _ => [] end.
Definition cart_call (b : bool) := shoot_elements any_integrator one_name [] "implicit" limited_k cart_bps cart_x cart_u cart_p
  cart_thetas [cart_fns] b [(1, cart_points)] (nlp_init, 1000).
Definition cart_first : list reached * list shot := Eval vm_compute in match snd (cart_call false) with Ok r => r | Raise _ => ([], []) end.
Definition cart_second : list reached * list shot := Eval vm_compute in match snd (cart_call true) with Ok r => r | Raise _ => ([], []) end.
Definition cart_z : reached := Eval vm_compute in hd (mkReached [] [] [] []) (fst cart_first).
Lemma cart_call_is : forall b : bool, cart_call b = ((nlp_init, 1012), Ok ([cart_z], snd (if b then cart_second else cart_first))).
Proof. intros b. destruct b; vm_compute; reflexivity. Qed.
Lemma cart_stands : forall later, stands_for (fun _ x => x) limited_k (cart_env later) cart_x cart_u cart_p cart_thetas cart_values.
Proof.
  intros later. constructor.
  - intros [|[|el]] l v Hl Hv; cbn in Hl; try discriminate; try (destruct el; discriminate); injection Hl as <-; cbn in Hv; injection Hv as <-; vm_compute; reflexivity.
  - intros [|[|el]] l Hl; cbn in Hl; try discriminate; try (destruct el; discriminate); injection Hl as <-; vm_compute; reflexivity.
  - vm_compute. reflexivity.
  - intros [|[|el]] l Hl; cbn in Hl; try discriminate; try (destruct el; discriminate); injection Hl as <-; vm_compute; reflexivity.
Qed.
Lemma cart_sized : well_sized limited_k cart_values.
Proof. constructor; try (intros el); try reflexivity. unfold cart_values. cbn [h_x]. destruct (el =? 0); reflexivity. Qed.
Lemma cart_computed : forall b : bool,
    computed (fun _ x => x) counting [] (cart_env (cart_later b)) (snd (if b then cart_second else cart_first)).
Proof. intros b. unfold computed. destruct b; repeat (constructor; [vm_compute; reflexivity|]); constructor. Qed.

Lemma w_cart_at_times : exists k bps fns z, limited_cart = Ok k /\ shootable k /\ breakpoints k = Ok bps /\
    element_functions k bps cart_group = Ok fns /\ well_sized k cart_values /\
    forall from_start, exists shots, let env := cart_env (cart_later from_start) in
      shoot_elements any_integrator one_name [] "implicit" k bps cart_x cart_u cart_p cart_thetas [fns] from_start
        [(1, cart_points)] (nlp_init, 1000) = ((nlp_init, 1012), Ok ([z], shots)) /\
      stands_for (fun _ x => x) k env cart_x cart_u cart_p cart_thetas cart_values /\
      computed (fun _ x => x) counting [] env shots /\
      valued (fun _ x => x) env (g_x z) = (if from_start then [[7; 1; 0]; [8; 1; 0]; [8; 1; 0]] else [[7; 1; 0]; [9; 1; 0]; [10; 1; 0]])%Q /\
      valued (fun _ x => x) env (g_y z) = [[2]]%Q /\
      valued (fun _ x => x) env (g_u z) = [[1 # 2]; [1 # 2]]%Q /\
      map (valued (fun _ x => x) env) (g_f z) = (if from_start then [[[10]; [10]]] else [[[10]; [12]]])%Q.
Proof.
  exists limited_k, cart_bps, cart_fns, cart_z.
  split; [vm_compute; reflexivity|]. split; [exact (limited_shootable false)|]. split; [vm_compute; reflexivity|].
  split; [vm_compute; reflexivity|]. split; [exact cart_sized|]. intros b. exists (snd (if b then cart_second else cart_first)). cbv zeta.
  split; [exact (cart_call_is b)|]. split; [apply cart_stands|]. split; [apply cart_computed|].
  destruct b; (split; [vm_compute; reflexivity|]; split; [vm_compute; reflexivity|]; split; vm_compute; reflexivity).
Qed.

Lemma w_resting_composes : forall el, composes resting [] "implicit" one_name limited_k cart_values el.
Proof.
  intros el i j t_0 x_0 t t' v v' N H1 H2. unfold run_to, dae_simulate in *.
  destruct (Qeq_bool t t_0); [discriminate|]. destruct (Qeq_bool t' t); [discriminate|].
  destruct (Qeq_bool t' t_0) eqn:E; [apply Qeq_bool_iff in E; contradiction|].
  destruct (match d_tau (element_system limited_k el) with Some tau => _ | None => _ end); [discriminate|].
  destruct (integrator_options [] _) as [n1 o1] in H1. destruct (integrator_options [] _) as [n2 o2] in H2.
  destruct (integrator_options [] _) as [n3 o3].
  destruct (select_plugin (element_system limited_k el) "implicit") as [pl|]; [|discriminate].
  unfold resting in *. cbn [ic_x0] in *. injection H1 as <-. cbn [fst] in H2. exact H2.
Qed.
Lemma w_resting_cart_composes : exists k, limited_cart = Ok k /\ forall el, composes resting [] "implicit" one_name k cart_values el.
Proof. exists limited_k. split; [vm_compute; reflexivity | exact w_resting_composes]. Qed.

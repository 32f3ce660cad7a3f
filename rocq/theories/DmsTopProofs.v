(** Proofs about the direct method with multiple shooting: what its nonlinear program says
    about the problem of the user. *)
From Coq Require Import String Lqa.
From Verif Require Import Base BaseProofs UtilModel UtilProofs ExprModel ExprProofs NlpModel NlpSpec NlpProofs SysModel
  SysSpec SysProofs SimModel SimProofs OcpModel OcpSpec OcpMoreProofs LagModel LagSpec LagProofs DiscModel DiscSpec DiscProofs
  ColSpec ColEvalProofs ColMainProofs ColTopProofs ColClosedProofs DirSpec DirProofs DirColProofs DirTopProofs
  ShoModel ShoSpec ShoShotProofs ShoProofs ShoTopProofs ShoMoreProofs ShoClosedProofs DmsSpec DmsRkProofs DmsProofs DmsPlanProofs DmsCoreProofs.
Local Open Scope list_scope.
Local Open Scope nat_scope.

(** There is one objective. *)
Lemma cost_is_one : forall buildable label defaults ty k c n s r shots, shootable k ->
    create_optimization_problem (shooting_discretize buildable label defaults ty k) k c = Ok (n, s, (r, shots)) ->
    forall v w, k_direct k = true -> k_cost_as_sum k = false -> o_V (k_problem k) = [v] -> o_S (k_problem k) = [w] ->
    exists e, nf n = [e].
Proof.
  intros buildable label defaults ty k c n s r shots T H v w Hd Hs Ev Ew.
  destruct (create_inv _ _ _ _ _ _ _ H) as [Es [n0 [c0 [Hd' [_ [_ [_ [_ [_ [_ N7]]]]]]]]]].
  destruct (sho_sizes _ _ _ _ _ _ _ _ _ _ H) as [_ [Lp [Rt Lx]]].
  destruct (description_exists _ _ _ _ _ _ _ _ _ _ T H (fun _ => 0%Q)) as [h D].
  destruct (sho_discretize_ok buildable label defaults ty k (fun _ x => x) _ _ _ _ _ _ _ (fun f a b E => E) T Lp Rt Lx Hd' _ _
              (fun el => match nth_error shots el with
                         | Some sh => (map (fun _ => 0%Q) (sh_xf sh), map (fun _ => 0%Q) (sh_zf sh)) | None => ([], []) end) D)
    as [rs [cost [E [_ [_ [V _]]]]]].
  { intros el sh Hsh. rewrite Hsh. reflexivity. }
  destruct (V Hd Hs v w Ev Ew) as [e [Ee _]]. exists e. rewrite N7, E. exact Ee.
Qed.

Section Top.
  Variables (F : nat -> Q -> Q) (flow : flow_of_fields) (total : integral_along) (integrate : icall -> res (list Q * list Q))
    (buildable : optval -> string -> dict string (list expr) -> options -> bool)
    (label : nat -> nat -> string) (defaults : options) (ty : string) (points : nat -> list Q) (k : method) (c0 : sym)
    (nl : nlp) (s : par_syms) (r : traj sym) (shots : list shot) (o : ocp) (x_c x_c0 first : sym) (l : expr).
  Let upts := points (k_degree_control k).
  Let m := o_model o.
  Let n := length (m_x m).
  Let N := k_elements k.
  Hypothesis HF : respects F.
  Hypothesis Hset : shooting_setting buildable label defaults ty points k c0 nl s r shots o x_c x_c0 first.
  Hypothesis Hint : integrates F integrate defaults (plugin_of ty (length (m_y m))) (guess_of k) flow.
  Hypothesis Hflow : solution_method flow total.
  Hypothesis El : o_L o = [l].

  Let HT := hs_shootable _ _ _ _ _ _ _ _ _ _ _ _ _ _ _ Hset.
  Let Hposed := hs_posed _ _ _ _ _ _ _ _ _ _ _ _ _ _ _ Hset.
  Let Hcreate := hs_created _ _ _ _ _ _ _ _ _ _ _ _ _ _ _ Hset.
  Let Hdirect := proj1 (hs_direct _ _ _ _ _ _ _ _ _ _ _ _ _ _ _ Hset).
  Let Hsum := proj2 (hs_direct _ _ _ _ _ _ _ _ _ _ _ _ _ _ _ Hset).

  Lemma ready : prepared F upts x_c x_c0 o (k_problem k).
  Proof. destruct Hset. apply (w_C67_prepared F points (k_degree_control k) x_c x_c0 first); assumption. Qed.
  Lemma positive : 0 < N.
  Proof. pose proof (so_elements _ HT). fold N in H. lia. Qed.
  Lemma sizes : length (m_x (k_model k)) = n + 1 /\ m_y (k_model k) = m_y m /\ m_t (k_model k) = m_t m /\ m_tau (k_model k) = m_tau m /\
      m_p (k_model k) = m_p m /\ m_theta (k_model k) = m_theta m.
  Proof. exact (plan_sizes F upts x_c x_c0 o k ready). Qed.
  Lemma shape : shooting_shape k r.
  Proof. apply (sho_layout _ _ _ _ _ _ _ _ _ _ HT Hcreate). Qed.

  Lemma shot_at : forall el, el < N -> exists sh, nth_error shots el = Some sh /\ sh_dae sh = element_system k el /\
      sh_tf sh = boundary k (S el) /\ sh_t0 sh = boundary k el /\ length (sh_xf sh) = n + 1 /\ length (sh_zf sh) = length (m_y m).
  Proof.
    intros el Hel. destruct (sho_layout _ _ _ _ _ _ _ _ _ _ HT Hcreate) as [Sh [_ [Ls [_ [_ [_ HTk]]]]]].
    destruct (nth_error shots el) as [sh|] eqn:E; [|apply nth_error_None in E; fold N in Ls; lia].
    destruct (HTk el sh E) as [z Tk]. exists sh. split; [reflexivity|].
    destruct sizes as [Sx [Sy _]].
    destruct (shot_sizes k s r HT ty label el z sh Tk) as [L1 L2]. unfold n_x in L1. unfold n_y in L2. rewrite Sx in L1. rewrite Sy in L2.
    destruct (tk_is _ _ _ _ _ _ _ _ _ Tk) as [x_el [x0 [u_el [theta [i [vs [_ [_ [_ [_ [Esh _]]]]]]]]]]].
    rewrite Esh in L1, L2 |- *. cbn [sh_dae sh_tf sh_t0 sh_xf sh_zf] in *. auto 10.
  Qed.

  (** The system of an element has been accepted. *)
  Lemma accepted : forall el, el < N ->
      Qeq_bool (boundary k (S el)) (boundary k el) = false /\
      dae_depends_on (element_system k el) [m_tau (k_model k)] = false /\
      (exists plugin, select_plugin (element_system k el) ty = Ok plugin) /\
      closed_in (m_t (k_model k) :: m_x (k_model k) ++ m_y (k_model k) ++ m_p (k_model k) ++ m_theta (k_model k) ++ m_u_par (k_model k))
        (d_ode (element_system k el) ++ d_alg (element_system k el)).
  Proof.
    intros el Hel. destruct (shot_at el Hel) as [sh [E [Ed [Ef [E0 _]]]]].
    pose proof (create_built _ _ _ _ _ _ _ _ _ _ Hcreate) as B. rewrite Forall_forall in B.
    destruct (B sh (nth_error_In _ _ E)) as [_ [B1 [B2 [plugin [B3 B4]]]]]. rewrite Ed in B2, B3, B4. rewrite Ef, E0 in B1.
    split; [exact B1|]. split; [exact B2|]. split; [exists plugin; exact B3|].
    exact (hs_buildable _ _ _ _ _ _ _ _ _ _ _ _ _ _ _ Hset _ _ _ _ _ _ _ _ _ _ B4).
  Qed.

  Section Plan.
    Variables (h : shooting) (c : nat -> nat -> list Q).
    Hypothesis Fit : plan_fits k n h.
    Hypothesis Hc : steers o N upts h c.

    Lemma simulation_driven : forall el, el < N -> same_end (simulation integrate defaults ty label k h el)
          (match driven F flow o N h c el with
           | Ok (x, y) => Ok (x ++ [(nth n (h_x h el) 0 + spent F total o N h c l el)%Q], y)
           | Raise e => Raise e
           end).
    Proof.
      intros el Hel. destruct (accepted el Hel) as [B1 [B2 [B3 B4]]].
      apply (flow_is_driven F upts x_c x_c0 o k h c HF ready (po_symbols _ _ Hposed) (po_initial _ _ Hposed) (po_equations _ _ Hposed) (po_new _ _ Hposed)
        (pf_u _ _ _ Fit) (Lp F upts x_c x_c0 o k ready h Fit) (Lth F upts x_c x_c0 o k ready h Fit) (pf_x0 _ _ _ Fit) Hc el Hel B4 (so_symbols _ HT)
        flow total l integrate defaults ty label Hflow El Hint (so_algebraic _ HT) (pf_x _ _ _ Fit el (Nat.lt_le_incl _ _ Hel)) B1 B2 B3).
    Qed.
    Lemma ends_agree : forall el x y e, el < N -> simulation integrate defaults ty label k h el = Ok (x, y) -> driven F flow o N h c el = Ok e ->
        Forall2 Qeq x (fst e ++ [(nth n (h_x h el) 0 + spent F total o N h c l el)%Q]) /\ Forall2 Qeq y (snd e).
    Proof.
      intros el x y [x' y'] Hel S D. pose proof (simulation_driven el Hel) as G. rewrite S, D in G. exact G.
    Qed.
    Lemma driven_exists : forall sims, simulated integrate defaults ty label k h sims -> exists ends, driven_to F flow o N h c ends.
    Proof.
      intros sims S. apply (finite_choice _ ([], []) (fun el e => driven F flow o N h c el = Ok e)).
      intros el Hel. pose proof (simulation_driven el Hel) as G. rewrite (S el Hel) in G.
      destruct (driven F flow o N h c el) as [e|]; [exists e; reflexivity | destruct (sims el); destruct G].
    Qed.
    Lemma simulated_of_driven : forall ends, driven_to F flow o N h c ends -> exists sims, simulated integrate defaults ty label k h sims.
    Proof.
      intros ends S. apply (finite_choice _ ([], []) (fun el e => simulation integrate defaults ty label k h el = Ok e)).
      intros el Hel. pose proof (simulation_driven el Hel) as G. rewrite (S el Hel) in G. destruct (ends el) as [x y].
      destruct (simulation integrate defaults ty label k h el) as [e|]; [exists e; reflexivity | destruct G].
    Qed.
    Lemma all_agree : forall sims ends, simulated integrate defaults ty label k h sims -> driven_to F flow o N h c ends -> forall el, el < N ->
      Forall2 Qeq (fst (sims el)) (fst (ends el) ++ [(nth n (h_x h el) 0 + spent F total o N h c l el)%Q]) /\
      Forall2 Qeq (snd (sims el)) (snd (ends el)).
    Proof.
      intros sims ends S D el Hel. apply (ends_agree el); [exact Hel | rewrite (S el Hel); destruct (sims el); reflexivity | exact (D el Hel)].
    Qed.
  End Plan.

  (** ** Points and plans *)

  Lemma given_theta : forall el, el < N -> exists g d, nth_error (ps_theta s) el = Some g /\ nth_error (r_theta r) el = Some d.
  Proof.
    intros el Hel. destruct (sho_sizes _ _ _ _ _ _ _ _ _ _ Hcreate) as [_ [_ [[L1 _] _]]].
    destruct shape as [_ [_ [_ [_ [_ [L2 _]]]]]]. fold N in L1, L2.
    destruct (nth_error (ps_theta s) el) as [g|] eqn:Eg; [|apply nth_error_None in Eg; lia].
    destruct (nth_error (r_theta r) el) as [d|] eqn:Ed; [|apply nth_error_None in Ed; lia]. exists g, d. auto.
  Qed.
  Lemma row_at : forall (A : Type) a b d (g : list (list (list A))) el, grid a b d g -> el < a ->
      exists w, nth_error g el = Some w /\ rows b d w /\ length (concat w) = b * d.
  Proof.
    intros A a b d g el [L R] Hel. rewrite Forall_forall in R. destruct (nth_error g el) as [w|] eqn:E; [|apply nth_error_None in E; lia].
    pose proof (R w (nth_error_In _ _ E)) as Rw. exists w. split; [reflexivity|]. split; [exact Rw | apply rows_concat_length, Rw].
  Qed.
  Lemma describes_plan_fits : forall env h, describes_shooting k env s r h -> plan_fits k n h.
  Proof.
    intros env h D. destruct shape as [Gx [Gy [Gu _]]]. destruct sizes as [Sx _].
    destruct (sho_sizes _ _ _ _ _ _ _ _ _ _ Hcreate) as [_ [_ [_ Lx0]]]. constructor.
    - intros el Hel. destruct (row_at _ _ _ _ _ el Gx ltac:(lia)) as [w [E [_ L]]]. rewrite (ds_x _ _ _ _ _ D el w E), map_length, L. unfold n_x. rewrite Sx. lia.
    - intros el Hel. destruct (row_at _ _ _ _ _ el Gy Hel) as [w [E [_ L]]]. rewrite (ds_y _ _ _ _ _ D el w E), map_length, L. unfold n_y. lia.
    - intros el Hel. destruct (row_at _ _ _ _ _ el Gu Hel) as [w [E [_ L]]]. rewrite (ds_u _ _ _ _ _ D el w E), map_length, L. symmetry. apply (so_controls _ HT).
    - apply (ds_p _ _ _ _ _ D).
    - intros el Hel. destruct (given_theta el Hel) as [g [d [Eg Ed]]]. apply (ds_theta _ _ _ _ _ D el g d Eg Ed).
    - rewrite (ds_x0 _ _ _ _ _ D), map_length, Lx0. unfold n_x. rewrite Sx. reflexivity.
  Qed.
  Lemma sized_plan_fits : forall h, sized_plan k h -> plan_fits k n h.
  Proof.
    intros h [Z1 Z2 Z3 Z4 Z5 Z6 Z7 Z8]. destruct sizes as [Sx _]. rewrite Sx in Z7. constructor; auto. intros el _. rewrite Z1. exact Sx.
  Qed.
  Lemma sims_sized : forall env h sims, describes_shooting k env s r h -> computed F integrate defaults env shots ->
      simulated integrate defaults ty label k h sims -> forall el, el < N ->
      length (fst (sims el)) = n + 1 /\ length (snd (sims el)) = length (m_y m).
  Proof.
    intros env h sims D C S el Hel. destruct (shot_at el Hel) as [sh [E [_ [_ [_ [L1 L2]]]]]].
    rewrite (reaches_of_simulated _ _ _ _ _ _ _ _ _ _ HT Hcreate _ _ _ _ D sims C S el sh E). cbn [fst snd]. rewrite !map_length. auto.
  Qed.

  Theorem plan_feasible : forall env h c, describes_shooting k env s r h -> computed F integrate defaults env shots -> steers o N upts h c ->
      exists ends, driven_to F flow o N h c ends /\
        (feasible F env nl <-> bounded k env r /\ works F o N h c ends /\ collects F total o N h c n l).
  Proof.
    intros env h c D C Hc. pose proof (describes_plan_fits env h D) as Fit.
    destruct (w_C66_feasible _ _ _ _ _ _ _ _ _ _ HT Hcreate F integrate env h HF D C) as [sims [S I]].
    destruct (driven_exists h c Fit Hc sims S) as [ends E]. exists ends. split; [exact E|]. rewrite I.
    pose proof (core F total upts x_c x_c0 o k l HF ready Hposed positive Hsum h c Fit Hc ends sims (all_agree h c Fit Hc sims ends S E) (sims_sized env h sims D C S)) as G.
    rewrite G. reflexivity.
  Qed.

  Lemma cost_terms : forall v w, o_V o = [v] -> o_S o = [w] -> exists v' w', o_V (k_problem k) = [v'] /\ o_S (k_problem k) = [w'] /\
      steered F m upts (m_u_par (k_model k)) (EBin OAdd v (EVar x_c)) v' /\ steered F m upts (m_u_par (k_model k)) w w'.
  Proof.
    intros v w Ev Ew. destruct (pr_costs _ _ _ _ _ _ ready) as [v0 [v1 [E0 [E1 [S1 S2]]]]]. rewrite Ev in E0. injection E0 as <-.
    rewrite Ew in S2. inversion S2 as [|? w1 ? ? S3 S4 Ea E2]; subst. inversion S4; subst. exists v1, w1. auto.
  Qed.
  Theorem plan_objective : forall v w, o_V o = [v] -> o_S o = [w] ->
      exists e, nf nl = [e] /\ forall env h c ends, describes_shooting k env s r h -> computed F integrate defaults env shots -> steers o N upts h c ->
        driven_to F flow o N h c ends -> collects F total o N h c n l ->
        (eval F env e == plan_cost F total o N h c v l w ends + nth n (h_x0 h) 0)%Q.
  Proof.
    intros v w Ev Ew. destruct (cost_terms v w Ev Ew) as [v' [w' [Ev' [Ew' [Sv Sw]]]]].
    assert (G : forall env h c ends, describes_shooting k env s r h -> computed F integrate defaults env shots -> steers o N upts h c ->
        driven_to F flow o N h c ends -> collects F total o N h c n l -> exists e, nf nl = [e] /\
        (eval F env e == plan_cost F total o N h c v l w ends + nth n (h_x0 h) 0)%Q).
    { intros env h c ends D C Hc E Hco. pose proof (describes_plan_fits env h D) as Fit.
      destruct (simulated_exists _ _ _ _ _ _ _ _ _ _ HT Hcreate _ _ _ _ D C) as [sims S].
      destruct (w_C66_direct_cost _ _ _ _ _ _ _ _ _ _ HT Hcreate v' w' Hdirect Hsum Ev' Ew' F integrate env h sims HF D C S) as [e [Ee V]].
      exists e. split; [exact Ee|]. rewrite V.
      exact (core_cost F total upts x_c x_c0 o k l HF ready Hposed positive h c Fit Hc ends sims (all_agree h c Fit Hc sims ends S E) (sims_sized env h sims D C S)
        v w v' w' Ev Ew Sv Sw Hco). }
    destruct (cost_is_one _ _ _ _ _ _ _ _ _ _ HT Hcreate v' w' Hdirect Hsum Ev' Ew') as [e Ee]. exists e. split; [exact Ee|].
    intros env h c ends D C Hc E Hco. destruct (G env h c ends D C Hc E Hco) as [e' [Ee' V]]. rewrite Ee in Ee'. injection Ee' as <-. exact V.
  Qed.

  (** ** Bounds *)

  Lemma control_rows : 0 < length (m_u m) -> control_count k = length upts.
  Proof.
    intros H. pose proof (so_controls _ HT) as A. destruct (pr_parameters _ _ _ _ _ _ ready) as [B _]. fold m in B.
    destruct (pr_same _ _ _ _ _ _ ready) as [E _]. cbv zeta in E. fold m in E. injection E as _ Eu _ _ _ _.
    unfold k_model in A. rewrite Eu in A. rewrite B in A. nia.
  Qed.
  Lemma entry_value : forall (env : sym -> Q) (g : list (list (list sym))) a d (f : nat -> list Q) el i v, grid a 1 d g ->
      (forall el w, nth_error g el = Some w -> f el = map env (concat w)) -> entry g el 0 i = Some v -> nth_error (f el) i = Some (env v).
  Proof.
    intros env g a d f el i v G D Ev. destruct (grid_inside _ _ _ _ _ _ _ _ _ G Ev) as [I1 [I2 I3]].
    destruct (row_at _ _ _ _ _ el G I1) as [w [E [R _]]]. rewrite (D el w E), nth_error_map.
    assert (E2 : entry2 w 0 i = Some v) by (unfold entry in Ev; rewrite E in Ev; exact Ev).
    pose proof (rows_entry _ _ _ _ _ _ _ R E2) as Hn. cbn [Nat.mul Nat.add] in Hn. rewrite Hn. reflexivity.
  Qed.

  Theorem plan_bounds : forall env h c, describes_shooting k env s r h -> steers o N upts h c ->
      (bounded k env r <-> plan_within o N h c upts /\
         (o_positive o = true -> forall el, el <= N -> (0 <= nth n (h_x h el) 0)%Q)).
  Proof.
    intros env h c D Hc. pose proof shape as Sh.
    destruct (pr_same _ _ _ _ _ _ ready) as [E [Eo [Eb _]]]. cbv zeta in E. fold m in E. injection E as Ey Eu Ep Eth _ _.
    injection Eo as _ _ _ Epo Eto. injection Eb as Eymin Eymax Eumin Eumax Epmin Epmax Etmin Etmax.
    destruct (pr_states _ _ _ _ _ _ ready) as [Ex [_ [_ [Exmin Exmax]]]]. fold m in Ex.
    destruct sizes as [Lx _].
    destruct (so_bounds _ HT) as [[[A1 [A2 _]] [_ [_ [_ [_ _]]]]] _]. rewrite Exmin, app_length in A1. rewrite Exmax, app_length in A2.
    fold (k_model k) in A1, A2. rewrite Lx in A1, A2. cbn [length] in A1, A2.
    pose proof Sh as [Gx [Gy [Gu [_ [LP [Lt Rt]]]]]].
    assert (Uv : forall el j i v, entry (r_u r) el j i = Some v -> forall tau, nth_error upts j = Some tau ->
                   (poly (c el i) tau == env v)%Q).
    { intros el j i v Ev tau Ht. destruct (grid_inside _ _ _ _ _ _ _ _ _ Gu Ev) as [I1 [I2 I3]].
      assert (Iu : i < length (m_u m)) by (unfold n_u, k_model in I3; rewrite Eu in I3; exact I3).
      apply (proj2 (Hc el I1 i Iu) j tau (env v) Ht).
      destruct (row_at _ _ _ _ _ el Gu I1) as [w [Ew [R _]]]. rewrite (ds_u _ _ _ _ _ D el w Ew).
      assert (El2 : entry2 w j i = Some v) by (unfold entry in Ev; rewrite Ew in Ev; exact Ev).
      pose proof (rows_entry _ _ _ _ _ _ _ R El2) as Hn. replace (n_u k) with (length (m_u m)) in Hn by (unfold n_u, k_model; rewrite Eu; reflexivity).
      unfold m in Hn. rewrite nth_error_map, Hn. reflexivity. }
    pose proof (fun el i v => entry_value env (r_x r) _ _ (h_x h) el i v Gx (ds_x _ _ _ _ _ D)) as Xv.
    pose proof (fun el i v => entry_value env (r_y r) _ _ (h_y h) el i v Gy (ds_y _ _ _ _ _ D)) as Yv.
    pose proof (describes_plan_fits env h D) as Fit.
    split.
    - intros [B1 B2 B3 B4 B5]. split.
      2: { intros Hp el Hel. destruct (grid_has _ _ _ _ _ el 0 n Gx ltac:(fold N; lia) ltac:(lia) ltac:(unfold n_x; rewrite Lx; lia)) as [v Ev].
           rewrite (nth_error_nth _ _ 0%Q (Xv el n v Ev)). refine (proj1 (B1 el 0 n v (Fin 0%Q) PInf Ev _ _)).
           - rewrite Exmin, Hp, nth_error_app2 by lia. replace (n - length (o_x_min o)) with 0 by lia. reflexivity.
           - rewrite Exmax, nth_error_app2 by lia. replace (n - length (o_x_max o)) with 0 by lia. reflexivity. }
      constructor.
      + intros el i a lo hi Hel Hi Ha Hlo Hhi. fold m in Hi. fold n in Hi.
        destruct (grid_has _ _ _ _ _ el 0 i Gx ltac:(fold N; lia) ltac:(lia) ltac:(unfold n_x; rewrite Lx; lia)) as [v Ev].
        rewrite (Xv el i v Ev) in Ha. injection Ha as <-. apply (B1 el 0 i v lo hi Ev).
        * rewrite Exmin, nth_error_app1 by (apply nth_error_Some; congruence). exact Hlo.
        * rewrite Exmax, nth_error_app1 by (apply nth_error_Some; congruence). exact Hhi.
      + intros el i a lo hi Hel Ha Hlo Hhi.
        assert (Hi : i < n_y k) by (unfold n_y; rewrite <- (pf_y _ _ _ Fit el Hel); apply nth_error_Some; congruence).
        destruct (grid_has _ _ _ _ _ el 0 i Gy Hel ltac:(lia) Hi) as [v Ev]. rewrite (Yv el i v Ev) in Ha. injection Ha as <-.
        apply (B2 el 0 i v lo hi Ev); [rewrite Eymin | rewrite Eymax]; assumption.
      + intros el tau i lo hi Hel Ht Hi Hlo Hhi. apply In_nth_error in Ht. destruct Ht as [j Ej].
        assert (Hj : j < control_count k) by (rewrite control_rows by (fold m in Hi; lia); apply nth_error_Some; congruence).
        assert (Hi' : i < n_u k) by (unfold n_u, k_model; rewrite Eu; exact Hi).
        destruct (grid_has _ _ _ _ _ el j i Gu Hel Hj Hi') as [v Ev].
        apply (ext_le_compat lo hi _ _ (Uv el j i v Ev tau Ej)).
        apply (B3 el j i v lo hi Ev); [rewrite Eumin | rewrite Eumax]; assumption.
      + intros j i nm a lo hi Hj Hi Ha Hlo Hhi. fold m in Hi.
        assert (Hi' : nth_error (m_p (k_model k)) i = Some nm) by (unfold k_model; rewrite Ep; exact Hi).
        pose proof (proj2 (proj2 (ds_p _ _ _ _ _ D) i nm Hi') j ltac:(rewrite Epo; exact Hj)) as V. rewrite Ha in V.
        destruct (nth_error (r_p r) j) as [v|] eqn:Ev; [|rewrite nth_error_map, Ev in V; discriminate].
        rewrite nth_error_map, Ev in V. assert (a = env v) by (cbn in V; congruence). subst a.
        apply (B4 j v lo hi Ev); [rewrite Epmin | rewrite Epmax]; assumption.
      + intros el j i nm a lo hi Hel Hj Hi Ha Hlo Hhi. fold m in Hi. destruct (given_theta el Hel) as [g [d [Eg Ed]]].
        assert (Hi' : nth_error (m_theta (k_model k)) i = Some nm) by (unfold k_model; rewrite Eth; exact Hi).
        pose proof (proj2 (proj2 (ds_theta _ _ _ _ _ D el g d Eg Ed) i nm Hi') j ltac:(rewrite Eto; exact Hj)) as V. rewrite Ha in V.
        destruct (nth_error d j) as [v|] eqn:Ev; [|rewrite nth_error_map, Ev in V; discriminate].
        rewrite nth_error_map, Ev in V. assert (a = env v) by (cbn in V; congruence). subst a.
        apply (B5 el j v lo hi); [unfold entry2; rewrite Ed; exact Ev | rewrite Etmin | rewrite Etmax]; assumption.
    - intros [[B1 B2 B3 B4 B5] B6]. constructor.
      + intros el j i v lo hi Ev Hlo Hhi. destruct (grid_inside _ _ _ _ _ _ _ _ _ Gx Ev) as [I1 [I2 I3]]. unfold n_x in I3. rewrite Lx in I3.
        assert (j = 0) by lia. subst j. fold N in I1.
        rewrite Exmin in Hlo. rewrite Exmax in Hhi. destruct (Nat.eq_dec i n) as [->|Ne].
        * rewrite nth_error_app2 in Hlo by lia. rewrite nth_error_app2 in Hhi by lia.
          replace (n - length (o_x_min o)) with 0 in Hlo by lia. replace (n - length (o_x_max o)) with 0 in Hhi by lia.
          cbn [nth_error] in Hlo, Hhi. injection Hlo as <-. injection Hhi as <-. split; [|exact I].
          destruct (o_positive o); [|exact I]. pose proof (B6 eq_refl el ltac:(lia)) as G. rewrite (nth_error_nth _ _ 0%Q (Xv el n v Ev)) in G. exact G.
        * rewrite nth_error_app1 in Hlo by lia. rewrite nth_error_app1 in Hhi by lia.
          apply (B1 el i (env v) lo hi); [lia | fold m; fold n; lia | exact (Xv el i v Ev) | exact Hlo | exact Hhi].
      + intros el j i v lo hi Ev Hlo Hhi. destruct (grid_inside _ _ _ _ _ _ _ _ _ Gy Ev) as [I1 [I2 I3]].
        assert (j = 0) by lia. subst j. rewrite Eymin in Hlo. rewrite Eymax in Hhi.
        exact (B2 el i (env v) lo hi I1 (Yv el i v Ev) Hlo Hhi).
      + intros el j i v lo hi Ev Hlo Hhi. destruct (grid_inside _ _ _ _ _ _ _ _ _ Gu Ev) as [I1 [I2 I3]].
        unfold n_u, k_model in I3. rewrite Eu in I3.
        destruct (nth_error upts j) as [tau|] eqn:Ej; [|apply nth_error_None in Ej; rewrite control_rows in I2 by (unfold m in *; lia); lia].
        apply (ext_le_compat lo hi _ _ (Uv el j i v Ev tau Ej)).
        rewrite Eumin in Hlo. rewrite Eumax in Hhi. exact (B3 el tau i lo hi I1 (nth_error_In _ _ Ej) I3 Hlo Hhi).
      + intros j v lo hi Ev Hlo Hhi. assert (Hj : j < length (o_p_opt (k_problem k))) by (unfold n_p_opt in LP; rewrite <- LP; apply nth_error_Some; congruence).
        destruct (nth_error (o_p_opt (k_problem k)) j) as [nm|] eqn:Ej; [|apply nth_error_None in Ej; lia].
        destruct (so_own _ HT) as [[O1 _] _]. pose proof (O1 nm (nth_error_In _ _ Ej)) as I. apply In_nth_error in I. destruct I as [i Hi].
        fold (k_model k) in Hi. pose proof (proj2 (proj2 (ds_p _ _ _ _ _ D) i nm Hi) j Ej) as V. rewrite nth_error_map, Ev in V. cbn [option_map] in V.
        unfold k_model in Hi. rewrite Ep in Hi. rewrite Epo in Ej. rewrite Epmin in Hlo. rewrite Epmax in Hhi.
        exact (B4 j i nm (env v) lo hi Ej Hi V Hlo Hhi).
      + intros el j v lo hi Ev Hlo Hhi. unfold entry2 in Ev. destruct (nth_error (r_theta r) el) as [d|] eqn:Ed; [|discriminate].
        assert (Hel : el < k_elements k) by (rewrite <- Lt; apply nth_error_Some; congruence).
        destruct (given_theta el Hel) as [g [d' [Eg Ed']]].
        rewrite Forall_forall in Rt. pose proof (Rt d (nth_error_In _ _ Ed)) as Ld.
        assert (Hj : j < length (o_theta_opt (k_problem k))) by (unfold n_theta_opt in Ld; rewrite <- Ld; apply nth_error_Some; congruence).
        destruct (nth_error (o_theta_opt (k_problem k)) j) as [nm|] eqn:Ej; [|apply nth_error_None in Ej; lia].
        destruct (so_own _ HT) as [[_ O2] _]. pose proof (O2 nm (nth_error_In _ _ Ej)) as I. apply In_nth_error in I. destruct I as [i Hi].
        fold (k_model k) in Hi. pose proof (proj2 (proj2 (ds_theta _ _ _ _ _ D el g d Eg Ed) i nm Hi) j Ej) as V. rewrite nth_error_map, Ev in V. cbn [option_map] in V.
        unfold k_model in Hi. rewrite Eth in Hi. rewrite Eto in Ej. rewrite Etmin in Hlo. rewrite Etmax in Hhi.
        exact (B5 el j i nm (env v) lo hi Hel Ej Hi V Hlo Hhi).
  Qed.

  (** ** Plans with another cost state *)

  Section Collected.
    Variables (h : shooting) (c : nat -> nat -> list Q) (g : nat -> Q).
    Hypothesis Z : sized_plan k h.
    Notation h' := (with_collected h n g).

    Lemma collected_state : forall el, state o h' el = state o h el.
    Proof.
      intros el. unfold state, with_collected. cbn [h_x]. fold m. fold n.
      pose proof (pf_x _ _ _ (sized_plan_fits h Z)) as L. destruct sizes as [Sx _].
      assert (Lf : length (firstn n (h_x h el)) = n) by (rewrite firstn_length, (sz_x _ _ Z el), Sx; lia).
      rewrite firstn_app, Lf, Nat.sub_diag, firstn_O, app_nil_r. rewrite <- Lf at 1. apply firstn_all.
    Qed.
    Lemma collected_component : forall el, nth n (h_x h' el) 0%Q = g el.
    Proof.
      intros el. cbn [with_collected h_x]. destruct sizes as [Sx _].
      assert (Lf : length (firstn n (h_x h el)) = n) by (rewrite firstn_length, (sz_x _ _ Z el), Sx; lia).
      rewrite app_nth2, Lf, Nat.sub_diag by lia. reflexivity.
    Qed.
    Lemma collected_driven : forall el, driven F flow o N h' c el = driven F flow o N h c el.
    Proof. intros el. unfold driven. rewrite collected_state. reflexivity. Qed.
    Lemma collected_spent : forall el, spent F total o N h' c l el = spent F total o N h c l el.
    Proof. intros el. unfold spent. rewrite collected_state. reflexivity. Qed.
    Lemma collected_end : plan_end o N h' c = plan_end o N h c.
    Proof. unfold plan_end. rewrite collected_state. reflexivity. Qed.
    Lemma collected_works : forall ends, works F o N h c ends -> works F o N h' c ends.
    Proof.
      intros ends [S1 S2 S3 S4 S5 S6 S7 S8]. constructor.
      - unfold plan_start. rewrite collected_state. exact S1.
      - intros el Hel. rewrite collected_state. exact (S2 el Hel).
      - exact S3.
      - exact S4.
      - exact S5.
      - exact S6.
      - rewrite collected_end. exact S7.
      - rewrite collected_end. exact S8.
    Qed.
    Lemma collected_cost : forall v w ends, plan_cost F total o N h' c v l w ends = plan_cost F total o N h c v l w ends.
    Proof.
      intros v w ends. unfold plan_cost. rewrite collected_end. f_equal. f_equal. apply map_ext. intros el. apply collected_spent.
    Qed.
    Lemma collected_sized : sized_plan k h'.
    Proof.
      destruct sizes as [Sx _]. destruct Z as [Z1 Z2 Z3 Z4 Z5 Z6 Z7 Z8]. constructor; try assumption.
      intros el. cbn [with_collected h_x]. rewrite app_length, firstn_length, Z1, Sx. cbn [length]. lia.
    Qed.
    Lemma collected_within : plan_within o N h c upts -> plan_within o N h' c upts.
    Proof.
      intros [B1 B2 B3 B4 B5]. constructor; try assumption. intros el i a lo hi Hel Hi Ha. fold m in Hi. fold n in Hi.
      apply (B1 el i a lo hi Hel Hi). cbn [with_collected h_x] in Ha. destruct sizes as [Sx _].
      assert (Lf : length (firstn n (h_x h el)) = n) by (rewrite firstn_length, (sz_x _ _ Z el), Sx; lia).
      rewrite nth_error_app1 in Ha by lia. rewrite <- (firstn_skipn n (h_x h el)), nth_error_app1 by lia. exact Ha.
    Qed.
  End Collected.

  (** The cost state that belongs to a plan. *)
  Definition cost_state (h : shooting) (c : nat -> nat -> list Q) (el : nat) : Q :=
    (nth n (h_x0 h) 0 + qsum (map (spent F total o N h c l) (seq 0 el)))%Q.
  Lemma cost_state_collects : forall h c, sized_plan k h -> collects F total o N (with_collected h n (cost_state h c)) c n l.
  Proof.
    intros h c Z. constructor.
    - rewrite (collected_component h _ Z). unfold cost_state. cbn [with_collected h_x0 seq map]. unfold qsum. cbn [fold_right]. lra.
    - intros el Hel. rewrite !(collected_component h _ Z), (collected_spent h c _ Z). unfold cost_state. rewrite seq_S, map_app, qsum_app. cbn [map Nat.add].
      unfold qsum at 2. cbn [fold_right]. lra.
  Qed.

  (** Every working plan is found among the points. *)
  Lemma plan_reached : forall h c ends, sized_plan k h -> steers o N upts h c -> driven_to F flow o N h c ends -> works F o N h c ends ->
      let h' := with_collected h n (cost_state h c) in
      exists env, describes_shooting k env s r h' /\ computed F integrate defaults env shots.
  Proof.
    intros h c ends Z Hc E W h'. pose proof (collected_sized h (cost_state h c) Z) as Z'. fold h' in Z'.
    pose proof (sized_plan_fits h' Z') as Fit'. assert (Hc' : steers o N upts h' c) by exact Hc.
    assert (E' : driven_to F flow o N h' c ends) by (intros el Hel; unfold h'; rewrite (collected_driven h c _ Z); exact (E el Hel)).
    destruct (simulated_of_driven h' c Fit' Hc' ends E') as [sims S]. destruct sizes as [Sx [Sy _]].
    set (sims' := fun el => if el <? N then sims el else (repeat 0%Q (n + 1), repeat 0%Q (length (m_y m)))).
    apply (shooting_point_exists _ _ _ _ _ _ _ _ _ _ HT Hcreate F integrate h' sims' HF).
    - destruct Z' as [Z1 Z2 Z3 Z4 Z5 Z6 Z7 Z8]. constructor; try assumption.
      intros el. rewrite Sx, Sy. unfold sims'. destruct (Nat.ltb_spec el N) as [Hel|Hel]; [|cbn [fst snd]; rewrite !repeat_length; auto].
      destruct (all_agree h' c Fit' Hc' sims ends S E' el Hel) as [A B].
      rewrite (Forall2_length_Q _ _ A), (Forall2_length_Q _ _ B), app_length. cbn [length].
      rewrite (Forall2_length_Q _ _ (wk_joined _ _ _ _ _ _ W el Hel)), (Forall2_length_Q _ _ (wk_algebraic _ _ _ _ _ _ W el Hel)).
      unfold state. fold m. fold n. rewrite firstn_length, (sz_x _ _ Z), (sz_y _ _ Z), Sx, Sy. split; [lia | reflexivity].
    - intros el Hel. unfold sims'. destruct (Nat.ltb_spec el N) as [_|X]; [exact (S el Hel) | fold N in Hel; lia].
  Qed.
  Lemma reached_feasible : forall h c ends env, sized_plan k h -> steers o N upts h c -> driven_to F flow o N h c ends -> works F o N h c ends ->
      describes_shooting k env s r (with_collected h n (cost_state h c)) -> computed F integrate defaults env shots ->
      (feasible F env nl <-> bounded k env r).
  Proof.
    intros h c ends env Z Hc E W D C. destruct (plan_feasible env _ c D C Hc) as [ends' [E' I]]. rewrite I.
    assert (Ee : forall el, el < N -> ends' el = ends el).
    { intros el Hel. pose proof (E' el Hel) as X. rewrite (collected_driven h c _ Z), (E el Hel) in X. injection X as X. symmetry. exact X. }
    assert (W' : works F o N (with_collected h n (cost_state h c)) c ends').
    { pose proof (collected_works h c (cost_state h c) Z ends W) as [S1 S2 S3 S4 S5 S6 S7 S8]. constructor; try assumption.
      - intros el Hel. rewrite (Ee el Hel). exact (S2 el Hel).
      - intros el Hel. rewrite (Ee el Hel). exact (S3 el Hel).
      - intros el gg Hel Hg. unfold plan_arrival. rewrite (Ee el Hel). exact (S5 el gg Hel Hg).
      - intros el gg Hel Hg. unfold plan_arrival. rewrite (Ee el Hel). exact (S6 el gg Hel Hg). }
    pose proof (cost_state_collects h c Z). tauto.
  Qed.

  Theorem every_plan : forall v w, o_V o = [v] -> o_S o = [w] ->
      exists e, nf nl = [e] /\ forall h c ends, sized_plan k h -> steers o N upts h c -> driven_to F flow o N h c ends -> works F o N h c ends ->
        exists env g, describes_shooting k env s r (with_collected h n g) /\ computed F integrate defaults env shots /\
          (feasible F env nl <-> bounded k env r) /\
          (eval F env e == plan_cost F total o N h c v l w ends + nth n (h_x0 h) 0)%Q.
  Proof.
    intros v w Ev Ew. destruct (plan_objective v w Ev Ew) as [e [Ee He]]. exists e. split; [exact Ee|].
    intros h c ends Z Hc E W. destruct (plan_reached h c ends Z Hc E W) as [env [D C]]. exists env, (cost_state h c).
    split; [exact D|]. split; [exact C|]. split; [exact (reached_feasible h c ends env Z Hc E W D C)|].
    rewrite (He env (with_collected h n (cost_state h c)) c ends D C Hc).
    - rewrite (collected_cost h c _ Z). reflexivity.
    - intros el Hel. rewrite (collected_driven h c _ Z). exact (E el Hel).
    - exact (cost_state_collects h c Z).
  Qed.

  (** ** Other plans with the same data *)

  Definition blended (env env' : sym -> Q) : sym -> Q := fun v => if in_dec Nat.eq_dec v (all_mx s) then env v else env' v.
  Lemma blended_given : forall env env' vs, incl vs (all_mx s) -> map (blended env env') vs = map env vs.
  Proof.
    intros env env' vs H. apply map_ext_in. intros v Hv. unfold blended. destruct (in_dec Nat.eq_dec v (all_mx s)) as [_|X]; [reflexivity|].
    exfalso. apply X, H, Hv.
  Qed.
  Lemma blended_decided : forall env env' v, In v (flatten r ++ concat (map (fun sh => sh_xf sh ++ sh_zf sh) shots)) -> blended env env' v = env' v.
  Proof.
    intros env env' v Hv. unfold blended. destruct (in_dec Nat.eq_dec v (all_mx s)) as [I|_]; [|reflexivity].
    exfalso. destruct (w_C66_shots _ _ _ _ _ _ _ _ _ _ HT Hcreate) as [_ X]. exact (NoDup_app_disjoint _ _ _ v X I Hv).
  Qed.
  Lemma blended_map : forall env env' vs, incl vs (flatten r) -> map (blended env env') vs = map env' vs.
  Proof. intros env env' vs H. apply map_ext_in. intros v Hv. apply blended_decided, in_app_iff. left. apply H, Hv. Qed.

  Lemma describes_blended : forall env env' h h', describes_shooting k env s r h -> describes_shooting k env' s r h' ->
      same_plan_data o N h h' -> describes_shooting k (blended env env') s r h'.
  Proof.
    intros env env' h h' D D' [S1 S2 S3 S4].
    destruct (pr_same _ _ _ _ _ _ ready) as [E [Eo _]]. cbv zeta in E. fold m in E. injection E as Ey Eu Ep Eth _ _.
    injection Eo as _ _ _ Epo Eto.
    assert (Ir : forall v, In v (concat (concat (r_x r))) \/ In v (concat (concat (r_y r))) \/ In v (concat (concat (r_u r))) \/ In v (r_eta r) \/ In v (r_p r) \/ In v (concat (r_theta r)) -> In v (flatten r)).
    { intros v H. unfold flatten. rewrite !in_app_iff. tauto. }
    assert (Im : incl (ps_p s) (all_mx s) /\ incl (concat (ps_theta s)) (all_mx s) /\ incl (ps_x0 s) (all_mx s) /\ incl (ps_last_u s) (all_mx s)).
    { unfold all_mx. repeat match goal with |- _ /\ _ => split end; intros v Hv; rewrite !in_app_iff; tauto. }
    assert (Row : forall (g : list (list (list sym))) el w, nth_error g el = Some w -> incl (concat w) (concat (concat g))).
    { intros g el w Hw v Hv. apply in_concat in Hv. destruct Hv as [x [Hx Hv]]. apply in_concat. exists x. split; [|exact Hv].
      apply in_concat. exists w. split; [exact (nth_error_In _ _ Hw) | exact Hx]. }
    destruct Im as [I1 [I2 [I3 I4]]]. constructor.
    - intros el w Hw. rewrite blended_map; [apply (ds_x _ _ _ _ _ D' el w Hw)|]. intros v Hv. apply Ir. left. exact (Row _ _ _ Hw v Hv).
    - intros el w Hw. rewrite blended_map; [apply (ds_y _ _ _ _ _ D' el w Hw)|]. intros v Hv. apply Ir. right. left. exact (Row _ _ _ Hw v Hv).
    - intros el w Hw. rewrite blended_map; [apply (ds_u _ _ _ _ _ D' el w Hw)|]. intros v Hv. apply Ir. right. right. left. exact (Row _ _ _ Hw v Hv).
    - rewrite blended_given by exact I1. rewrite blended_map by (intros v Hv; apply Ir; tauto).
      split; [apply (ds_p _ _ _ _ _ D')|]. intros i nm Hi. split.
      + intros Hn. rewrite (S3 i nm).
        * apply (proj1 (proj2 (ds_p _ _ _ _ _ D) i nm Hi) Hn).
        * unfold k_model in Hi. rewrite Ep in Hi. exact Hi.
        * rewrite <- Epo. exact Hn.
      + intros j Hj. apply (proj2 (proj2 (ds_p _ _ _ _ _ D') i nm Hi) j Hj).
    - intros el g d Eg Ed.
      assert (Hel : el < N).
      { destruct (sho_sizes _ _ _ _ _ _ _ _ _ _ Hcreate) as [_ [_ [[L1 _] _]]]. unfold N. rewrite <- L1. apply nth_error_Some. congruence. }
      rewrite blended_given by (intros v Hv; apply I2, in_concat; exists g; split; [exact (nth_error_In _ _ Eg) | exact Hv]).
      rewrite blended_map by (intros v Hv; apply Ir; do 5 right; apply in_concat; exists d; split; [exact (nth_error_In _ _ Ed) | exact Hv]).
      split; [apply (ds_theta _ _ _ _ _ D' el g d Eg Ed)|]. intros i nm Hi. split.
      + intros Hn. rewrite (S4 el i nm Hel).
        * apply (proj1 (proj2 (ds_theta _ _ _ _ _ D el g d Eg Ed) i nm Hi) Hn).
        * unfold k_model in Hi. rewrite Eth in Hi. exact Hi.
        * rewrite <- Eto. exact Hn.
      + intros j Hj. apply (proj2 (proj2 (ds_theta _ _ _ _ _ D' el g d Eg Ed) i nm Hi) j Hj).
    - rewrite blended_map by (intros v Hv; apply Ir; tauto). apply (ds_eta _ _ _ _ _ D').
    - rewrite blended_given by exact I3. rewrite S1. apply (ds_x0 _ _ _ _ _ D).
    - rewrite blended_given by exact I4. rewrite S2. apply (ds_last_u _ _ _ _ _ D).
  Qed.
  Lemma computed_blended : forall env env' h', describes_shooting k env' s r h' -> describes_shooting k (blended env env') s r h' ->
      computed F integrate defaults env' shots -> computed F integrate defaults (blended env env') shots.
  Proof.
    intros env env' h' D' Db C. unfold computed in *. rewrite Forall_forall in *. intros sh Hsh. specialize (C sh Hsh).
    pose proof Hsh as Hn. apply In_nth_error in Hn. destruct Hn as [el Hel].
    rewrite (shot_is_simulation _ _ _ _ _ _ _ _ _ _ HT Hcreate F integrate env' h' D' el sh Hel) in C.
    rewrite (shot_is_simulation _ _ _ _ _ _ _ _ _ _ HT Hcreate F integrate (blended env env') h' Db el sh Hel), C.
    assert (G : forall vs, incl vs (sh_xf sh ++ sh_zf sh) -> map env' vs = map (blended env env') vs).
    { intros vs Hi. apply map_ext_in. intros v Hv. symmetry. apply blended_decided, in_app_iff. right. apply in_concat.
      exists (sh_xf sh ++ sh_zf sh). split; [|apply Hi, Hv]. apply (in_map (fun sh => sh_xf sh ++ sh_zf sh)). exact Hsh. }
    rewrite (G (sh_xf sh)), (G (sh_zf sh)); [reflexivity | |]; intros v Hv; apply in_app_iff; tauto.
  Qed.

  (** Optimal points are optimal plans of the user. *)
  Theorem optimal_plan : forall v w, o_V o = [v] -> o_S o = [w] ->
      exists e, nf nl = [e] /\ forall env h c, describes_shooting k env s r h -> computed F integrate defaults env shots -> steers o N upts h c ->
        feasible F env nl ->
        (o_positive o = true -> (0 <= nth n (h_x0 h) 0)%Q /\ forall h' c' el, (0 <= spent F total o N h' c' l el)%Q) ->
        (forall env', map env' (all_mx s) = map env (all_mx s) -> computed F integrate defaults env' shots -> feasible F env' nl ->
           (eval F env e <= eval F env' e)%Q) ->
        exists ends, driven_to F flow o N h c ends /\ works F o N h c ends /\ plan_within o N h c upts /\
          forall h' c' ends', sized_plan k h' -> steers o N upts h' c' -> same_plan_data o N h h' -> driven_to F flow o N h' c' ends' ->
            works F o N h' c' ends' -> plan_within o N h' c' upts ->
            (plan_cost F total o N h c v l w ends <= plan_cost F total o N h' c' v l w ends')%Q.
  Proof.
    intros v w Ev Ew. destruct (plan_objective v w Ev Ew) as [e [Ee He]]. exists e. split; [exact Ee|].
    intros env h c D C Hc Hf Hpos Hmin. destruct (plan_feasible env h c D C Hc) as [ends [E I]]. exists ends. split; [exact E|].
    apply I in Hf. destruct Hf as [Hb [W Co]]. split; [exact W|]. split; [apply (plan_bounds env h c D Hc), Hb|].
    intros h' c' ends' Z Hc' Hsame E' W' Hw'.
    destruct (plan_reached h' c' ends' Z Hc' E' W') as [env1 [D1 C1]].
    assert (D2 : describes_shooting k (blended env env1) s r (with_collected h' n (cost_state h' c'))).
    { apply (describes_blended env env1 h); [exact D | exact D1|]. destruct Hsame as [S1 S2 S3 S4]. constructor; assumption. }
    pose proof (computed_blended env env1 _ D1 D2 C1) as C2.
    assert (F2 : feasible F (blended env env1) nl).
    { apply (reached_feasible h' c' ends' _ Z Hc' E' W' D2 C2). apply (plan_bounds _ _ c' D2 Hc'). split; [apply (collected_within h' c' _ Z), Hw'|].
      intros Hp el _. destruct (Hpos Hp) as [P0 P1]. rewrite (collected_component h' _ Z). unfold cost_state. rewrite (sp_x0 _ _ _ _ Hsame).
      assert (G : forall is, (0 <= qsum (map (spent F total o N h' c' l) is))%Q).
      { induction is as [|i is IH]; [cbn; lra|]. cbn [map]. pose proof (P1 h' c' i). unfold qsum in *. cbn [fold_right]. lra. }
      pose proof (G (seq 0 el)). lra. }
    pose proof (Hmin (blended env env1) (blended_given env env1 (all_mx s) (incl_refl _)) C2 F2) as M.
    rewrite (He env h c ends D C Hc E Co) in M.
    rewrite (He (blended env env1) (with_collected h' n (cost_state h' c')) c' ends' D2 C2 Hc') in M.
    - rewrite (collected_cost h' c' _ Z) in M. cbn [with_collected h_x0] in M. rewrite (sp_x0 _ _ _ _ Hsame) in M. lra.
    - intros el Hel. rewrite (collected_driven h' c' _ Z). exact (E' el Hel).
    - exact (cost_state_collects h' c' Z).
  Qed.
End Top.

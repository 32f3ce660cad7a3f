(** The statements about the direct method with multiple shooting, and the example. *)
From Coq Require Import String Lqa.
From Verif Require Import Base BaseProofs UtilModel UtilProofs ExprModel ExprProofs NlpModel NlpSpec NlpProofs SysModel
  SysSpec SysProofs SimModel SimProofs OcpModel OcpSpec OcpMoreProofs LagModel LagSpec LagProofs DiscModel DiscSpec DiscProofs
  ColSpec ColEvalProofs ColMainProofs ColTopProofs ColClosedProofs DirSpec DirProofs DirColProofs DirTopProofs DirExProofs
  ShoModel ShoSpec ShoShotProofs ShoProofs ShoTopProofs ShoMoreProofs ShoClosedProofs DmsSpec DmsRkProofs DmsProofs DmsPlanProofs DmsCoreProofs DmsTopProofs.
Local Open Scope list_scope.
Local Open Scope nat_scope.

Section Statements.
  Variables (F : nat -> Q -> Q) (flow : flow_of_fields) (total : integral_along) (integrate : icall -> res (list Q * list Q))
    (buildable : optval -> string -> dict string (list expr) -> options -> bool)
    (label : nat -> nat -> string) (defaults : options) (ty : string) (points : nat -> list Q) (k : method) (c0 : sym)
    (nl : nlp) (s : par_syms) (r : traj sym) (shots : list shot) (o : ocp) (x_c x_c0 first : sym) (l : expr).
  Hypothesis HF : respects F.
  Hypothesis Hset : shooting_setting buildable label defaults ty points k c0 nl s r shots o x_c x_c0 first.
  Hypothesis Hint : integrates F integrate defaults (plugin_of ty (length (m_y (o_model o)))) (guess_of k) flow.
  Hypothesis Hflow : solution_method flow total.
  Hypothesis El : o_L o = [l].
  Let N := k_elements k.
  Let upts := points (k_degree_control k).
  Let n := length (m_x (o_model o)).

  Lemma w_C82_feasible : forall env h c, describes_shooting k env s r h -> computed F integrate defaults env shots -> steers o N upts h c ->
      exists ends, driven_to F flow o N h c ends /\
        (feasible F env nl <-> bounded k env r /\ works F o N h c ends /\ collects F total o N h c n l).
  Proof. exact (plan_feasible F flow total integrate buildable label defaults ty points k c0 nl s r shots o x_c x_c0 first l HF Hset Hint Hflow El). Qed.
  Lemma w_C82_bounds : forall env h c, describes_shooting k env s r h -> steers o N upts h c ->
      (bounded k env r <-> plan_within o N h c upts /\
         (o_positive o = true -> forall el, el <= N -> (0 <= nth n (h_x h el) 0)%Q)).
  Proof. exact (plan_bounds F buildable label defaults ty points k c0 nl s r shots o x_c x_c0 first HF Hset). Qed.
  Lemma w_C82_objective : forall v w, o_V o = [v] -> o_S o = [w] ->
      exists e, nf nl = [e] /\ forall env h c ends, describes_shooting k env s r h -> computed F integrate defaults env shots -> steers o N upts h c ->
        driven_to F flow o N h c ends -> feasible F env nl ->
        (eval F env e == plan_cost F total o N h c v l w ends + nth n (h_x0 h) 0)%Q.
  Proof.
    intros v w Ev Ew.
    destruct (plan_objective F flow total integrate buildable label defaults ty points k c0 nl s r shots o x_c x_c0 first l HF Hset Hint Hflow El v w Ev Ew) as [e [Ee He]].
    exists e. split; [exact Ee|]. intros env h c ends D C Hc E Hf.
    destruct (w_C82_feasible env h c D C Hc) as [ends' [_ I]]. apply I in Hf. apply (He env h c ends D C Hc E). tauto.
  Qed.
  Lemma w_C82_every_plan : forall v w, o_V o = [v] -> o_S o = [w] ->
      exists e, nf nl = [e] /\ forall h c ends, sized_plan k h -> steers o N upts h c -> driven_to F flow o N h c ends -> works F o N h c ends ->
        exists env g, describes_shooting k env s r (with_collected h n g) /\ computed F integrate defaults env shots /\
          (feasible F env nl <-> bounded k env r) /\
          (eval F env e == plan_cost F total o N h c v l w ends + nth n (h_x0 h) 0)%Q.
  Proof. exact (every_plan F flow total integrate buildable label defaults ty points k c0 nl s r shots o x_c x_c0 first l HF Hset Hint Hflow El). Qed.
  Lemma w_C82_optimal : forall v w, o_V o = [v] -> o_S o = [w] ->
      exists e, nf nl = [e] /\ forall env h c, describes_shooting k env s r h -> computed F integrate defaults env shots -> steers o N upts h c ->
        feasible F env nl ->
        (o_positive o = true -> (0 <= nth n (h_x0 h) 0)%Q /\ forall h' c' el, (0 <= spent F total o N h' c' l el)%Q) ->
        (forall env', map env' (all_mx s) = map env (all_mx s) -> computed F integrate defaults env' shots -> feasible F env' nl ->
           (eval F env e <= eval F env' e)%Q) ->
        exists ends, driven_to F flow o N h c ends /\ works F o N h c ends /\ plan_within o N h c upts /\
          forall h' c' ends', sized_plan k h' -> steers o N upts h' c' -> same_plan_data o N h h' -> driven_to F flow o N h' c' ends' ->
            works F o N h' c' ends' -> plan_within o N h' c' upts ->
            (plan_cost F total o N h c v l w ends <= plan_cost F total o N h' c' v l w ends')%Q.
  Proof. exact (optimal_plan F flow total integrate buildable label defaults ty points k c0 nl s r shots o x_c x_c0 first l HF Hset Hint Hflow El). Qed.
End Statements.

(** ** The example *)

Definition level_shot (p : bool) : nlp * par_syms * (traj sym * list shot) := Eval vm_compute in
  match create_optimization_problem (shooting_discretize built_if_closed one_name [] "explicit" (level_k p)) (level_k p) 1000 as x
        return (match x with Ok _ => (nlp * par_syms * (traj sym * list shot))%type | Raise _ => unit end) with Ok k => k | Raise _ => tt end.
Lemma level_shot_created : forall p, create_optimization_problem (shooting_discretize built_if_closed one_name [] "explicit" (level_k p)) (level_k p) 1000 =
  Ok (fst (fst (level_shot p)), snd (fst (level_shot p)), (fst (snd (level_shot p)), snd (snd (level_shot p)))).
Proof. intros [|]; vm_compute; reflexivity. Qed.
Lemma level_shootable : forall p, shootable (level_k p).
Proof.
  intros p. destruct (level_transcribable p). constructor; try assumption; try reflexivity.
  vm_compute. discriminate.
Qed.
Lemma level_shooting_setting : forall p,
    shooting_setting built_if_closed one_name [] "explicit" radau (level_k p) 1000 (fst (fst (level_shot p))) (snd (fst (level_shot p)))
      (fst (snd (level_shot p))) (snd (snd (level_shot p))) (level_o p) 60 61 70.
Proof.
  intros p. constructor.
  - apply level_shootable.
  - vm_compute. lia.
  - apply level_control_points.
  - apply level_prepared.
  - apply level_posed.
  - apply level_shot_created.
  - split; reflexivity.
  - exact built_closed.
Qed.
Lemma level_spent : forall p h c el, (0 <= spent (fun _ x => x) (rk_total runge_kutta 1) (level_o p) 2 h c level_cost el)%Q.
Proof.
  intros p h c el. unfold spent, rk_total.
  set (f := fun t x => rates (fun _ x => x) (level_o p) 2 h c el t x []).
  assert (L : forall t x, (0 <= eval (fun _ x => x) (moment (level_o p) 2 h c el t x []) level_cost)%Q).
  { intros t x. unfold level_cost. cbn [eval binop_eval]. match goal with |- (0 <= ?z * ?z)%Q => generalize z end. intros z. nra. }
  cbn [rk_sum].
  assert (S1 : (start (level_o p) 2 (S el) - start (level_o p) 2 el == 1)%Q).
  { unfold start. rewrite (level_step p). rewrite Nat2Z.inj_succ. unfold Z.succ. rewrite inject_Z_plus. change (inject_Z 1) with 1%Q. lra. }
  match goal with |- (0 <= qsum ?L + 0)%Q => assert (G : (0 <= qsum L)%Q); [|lra] end.
  apply qsum_nonneg. intros z Hz. apply in_map_iff in Hz. destruct Hz as [[w [t x]] [<- Hw]]. cbn [fst snd].
  assert (Pw : (0 <= w)%Q) by (cbn in Hw; repeat (destruct Hw as [E|Hw]; [injection E as <- _ _; discriminate|]); destruct Hw).
  apply Qmult_le_0_compat; [|apply L]. change (inject_Z (Z.of_nat 1)) with 1%Q. rewrite S1.
  setoid_replace (1 / 1 * w)%Q with w by field. exact Pw.
Qed.

Section Held.
  Let F := fun (_ : nat) (x : Q) => x.
  Let o := level_o false.
  Let k := level_k false.
  Let flow := rk_flow runge_kutta 1.
  Let total := rk_total runge_kutta 1.
  Definition held_ends (el : nat) : list Q * list Q :=
    match driven F flow o 2 held_plan no_inflow el with Ok e => e | Raise _ => ([], []) end.
  Lemma held_driven : driven_to F flow o 2 held_plan no_inflow held_ends.
  Proof.
    intros el Hel. unfold held_ends. destruct (driven F flow o 2 held_plan no_inflow el) as [e|e] eqn:E; [reflexivity|].
    unfold driven, flow, rk_flow in E. cbn [o level_o o_model m_y length] in E. discriminate.
  Qed.
  Lemma held_steers : steers o 2 (radau 1) held_plan no_inflow.
  Proof.
    intros el Hel i Hi. cbn in Hi. split; [cbn; lia|]. intros [|j] tau v Ht Hv; [|destruct j; discriminate].
    assert (i = 0) by lia. subst i. cbn in Ht, Hv. injection Ht as <-. injection Hv as <-. vm_compute. reflexivity.
  Qed.
  Lemma held_sized : sized_plan k held_plan.
  Proof. constructor; intros; reflexivity. Qed.
  Lemma held_works : works F o 2 held_plan no_inflow held_ends.
  Proof.
    assert (Two : forall el, el < 2 -> el = 0 \/ el = 1) by (intros el H; lia).
    constructor.
    - intros e [<-|[]]. vm_compute. reflexivity.
    - intros el Hel. destruct (Two el Hel) as [-> | ->]; vm_compute; constructor; [reflexivity | constructor | reflexivity | constructor].
    - intros el Hel. destruct (Two el Hel) as [-> | ->]; vm_compute; constructor.
    - intros el i lo hi Hel Hl Hh. destruct i as [|i]; [|destruct i; discriminate]. cbn in Hl, Hh. injection Hl as <-. injection Hh as <-. split; exact I.
    - intros el g Hel [].
    - intros el g Hel [].
    - intros e [].
    - intros e [].
  Qed.
  Lemma held_within : plan_within o 2 held_plan no_inflow (radau 1).
  Proof.
    constructor.
    - intros el i a lo hi Hel Hi Ha Hlo Hhi. cbn in Hi. assert (i = 0) by lia. subst i. cbn in Hlo, Hhi. injection Hlo as <-. injection Hhi as <-. split; exact I.
    - intros el i a lo hi Hel Ha. destruct i; discriminate.
    - intros el tau i lo hi Hel Ht Hi Hlo Hhi. cbn in Hi. assert (i = 0) by lia. subst i. cbn in Hlo, Hhi. injection Hlo as <-. injection Hhi as <-.
      cbn. lra.
    - intros j i v b lo hi Hj. destruct j; discriminate.
    - intros el j i v b lo hi Hel Hj. destruct j; discriminate.
  Qed.
  Lemma held_cost : (plan_cost F total o 2 held_plan no_inflow (EConst 0) level_cost (EConst 0) held_ends == 0)%Q.
  Proof. vm_compute. reflexivity. Qed.
  Lemma plan_cost_nonneg : forall h c ends, (0 <= plan_cost F total o 2 h c (EConst 0) level_cost (EConst 0) ends)%Q.
  Proof.
    intros h c ends. unfold plan_cost. cbn [eval map seq]. pose proof (level_spent false h c 0) as A. pose proof (level_spent false h c 1) as B.
    fold F o total in A, B. cbn [qsum]. lra.
  Qed.
End Held.

Lemma w_level_planned : exists o k nl s r shots e env h c,
    level_problem false = Ok o /\ level_method false = Ok k /\
    shooting_setting built_if_closed one_name [] "explicit" radau k 1000 nl s r shots o 60 61 70 /\
    integrates (fun _ x => x) (rk_integrator (fun _ x => x) runge_kutta 1) [] (plugin_of "explicit" (length (m_y (o_model o)))) (guess_of k) (rk_flow runge_kutta 1) /\
    o_L o = [level_cost] /\ o_V o = [EConst 0] /\ o_S o = [EConst 0] /\ o_positive o = false /\ nf nl = [e] /\
    describes_shooting k env s r h /\ computed (fun _ x => x) (rk_integrator (fun _ x => x) runge_kutta 1) [] env shots /\
    steers o (k_elements k) (radau (k_degree_control k)) h c /\ feasible (fun _ x => x) env nl /\
    (forall env', map env' (all_mx s) = map env (all_mx s) ->
       computed (fun _ x => x) (rk_integrator (fun _ x => x) runge_kutta 1) [] env' shots -> feasible (fun _ x => x) env' nl ->
       (eval (fun _ x => x) env e <= eval (fun _ x => x) env' e)%Q) /\
    (eval (fun _ x => x) env e == 0)%Q.
Proof.
  assert (HF : respects (fun _ x => x)) by (intros f x y E; exact E).
  pose proof (level_shooting_setting false) as HS.
  pose proof (rk_integrates (fun _ x => x) runge_kutta 1 [] (plugin_of "explicit" (length (m_y (o_model (level_o false))))) (guess_of (level_k false))) as HI.
  pose proof (rk_solution runge_kutta 1) as HR.
  destruct (w_C82_every_plan _ _ _ _ _ _ _ _ _ _ _ _ _ _ _ _ _ _ _ level_cost HF HS HI HR eq_refl (EConst 0) (EConst 0) eq_refl eq_refl) as [e [Ee He]].
  destruct (w_C82_objective _ _ _ _ _ _ _ _ _ _ _ _ _ _ _ _ _ _ _ level_cost HF HS HI HR eq_refl (EConst 0) (EConst 0) eq_refl eq_refl) as [e' [Ee' Ho]].
  assert (e' = e) by congruence. subst e'.
  destruct (He held_plan no_inflow held_ends held_sized held_steers held_driven held_works) as [env [g [D [C [Hf V]]]]].
  assert (Fe : feasible (fun _ x => x) env (fst (fst (level_shot false)))).
  { apply Hf. apply (w_C82_bounds _ _ _ _ _ _ _ _ _ _ _ _ _ _ _ _ HF HS env _ no_inflow D held_steers). split; [|discriminate].
    destruct held_within as [B1 B2 B3 B4 B5]. constructor; try assumption.
    intros el i a lo hi Hel Hi Ha Hlo Hhi. cbn in Hi. assert (i = 0) by lia. subst i. cbn in Hlo, Hhi. injection Hlo as <-. injection Hhi as <-. split; exact I. }
  assert (V0 : (eval (fun _ x => x) env e == 0)%Q).
  { rewrite V. change (k_elements (level_k false)) with 2. rewrite held_cost. cbn. lra. }
  exists (level_o false), (level_k false), (fst (fst (level_shot false))), (snd (fst (level_shot false))), (fst (snd (level_shot false))), (snd (snd (level_shot false))).
  exists e, env, (with_collected held_plan 1 g), no_inflow.
  split; [apply level_problem_is|]. split; [apply level_method_is|]. split; [exact HS|]. split; [exact HI|].
  split; [reflexivity|]. split; [reflexivity|]. split; [reflexivity|]. split; [reflexivity|]. split; [exact Ee|].
  split; [exact D|]. split; [exact C|]. split; [exact held_steers|]. split; [exact Fe|]. split; [|exact V0].
  intros env' Hs C' F'. rewrite V0.
  destruct (description_exists _ _ _ _ _ _ _ _ _ _ (level_shootable false) (level_shot_created false) env') as [h' D'].
  pose proof (describes_plan_fits _ _ _ _ _ _ _ _ _ _ _ _ _ _ _ _ HF HS env' h' D') as Fit.
  destruct (finite_choice _ (fun _ => []) (fun el c => through (radau 1) 1 (h_u h' el) c) 2) as [c' Hc'].
  { intros el Hel. apply (proj1 (w_C67_controls radau 1 1 (h_u h' el) (level_control_points false) (pf_u _ _ _ Fit el Hel))). }
  destruct (w_C82_feasible _ _ _ _ _ _ _ _ _ _ _ _ _ _ _ _ _ _ _ level_cost HF HS HI HR eq_refl env' h' c' D' C' Hc') as [ends' [E' _]].
  rewrite (Ho env' h' c' ends' D' C' Hc' E' F').
  pose proof (plan_cost_nonneg h' c' ends') as G.
  assert (X0 : nth 1 (h_x0 h') 0%Q = 0%Q).
  { rewrite (ds_x0 _ _ _ _ _ D'). pose proof (ds_x0 _ _ _ _ _ D) as X. cbn [with_collected held_plan h_x0] in X.
    assert (Y : map env' (ps_x0 (snd (fst (level_shot false)))) = map env (ps_x0 (snd (fst (level_shot false))))).
    { apply map_ext_in. intros v Hv. apply (ext_in_map Hs). unfold all_mx. rewrite !in_app_iff. tauto. }
    rewrite Y, <- X. reflexivity. }
  change (length (m_x (o_model (level_o false)))) with 1. rewrite X0. change (k_elements (level_k false)) with 2. lra.
Qed.

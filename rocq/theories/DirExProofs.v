(** The example of the direct method. *)
From Coq Require Import String Qabs Lqa Sorted Setoid.
From Verif Require Import Base BaseProofs UtilModel ExprModel ExprProofs NlpModel NlpSpec SysModel SysSpec SysProofs
  OcpModel OcpSpec SimModel LagModel LagSpec LagProofs DiscModel DiscSpec DiscProofs ColSpec ColEvalProofs DirQuadProofs ColPolyProofs
  ColElementProofs ColMainProofs ColTopProofs DirSpec DirProofs DirColProofs DirTopProofs.
Local Open Scope list_scope.
Local Open Scope nat_scope.

Definition level_o (p : bool) : ocp := Eval vm_compute in
  match level_problem p as x return (match x with Ok _ => ocp | Raise _ => unit end) with Ok o => o | Raise _ => tt end.
Definition level_k (p : bool) : method := Eval vm_compute in
  match level_method p as x return (match x with Ok _ => method | Raise _ => unit end) with Ok k => k | Raise _ => tt end.
Definition level_nlp (p : bool) : nlp * par_syms * traj sym := Eval vm_compute in
  match create_optimization_problem (collocation_discretize radau (fun _ e => e) (level_k p)) (level_k p) 1000 as x
        return (match x with Ok _ => (nlp * par_syms * traj sym)%type | Raise _ => unit end) with Ok k => k | Raise _ => tt end.

Lemma level_problem_is : forall p, level_problem p = Ok (level_o p).
Proof. intros p. vm_compute. reflexivity. Qed.
Lemma level_method_is : forall p, level_method p = Ok (level_k p).
Proof. intros p. vm_compute. reflexivity. Qed.
Lemma level_prepared : forall p, direct_prepare radau (k_degree_control (level_k p)) 60 61 70 (level_o p) = (k_problem (level_k p), Ok tt).
Proof. intros p. vm_compute. reflexivity. Qed.
Lemma level_created : forall p, create_optimization_problem (collocation_discretize radau (fun _ e => e) (level_k p)) (level_k p) 1000 =
  Ok (fst (fst (level_nlp p)), snd (fst (level_nlp p)), snd (level_nlp p)).
Proof. intros [|]; vm_compute; reflexivity. Qed.
Lemma level_points : forall p, collocation_points (radau (k_degree (level_k p))) (k_degree (level_k p)).
Proof. intros p. vm_compute. repeat split; repeat constructor. Qed.
Lemma level_control_points : forall p, collocation_points (radau (k_degree_control (level_k p))) (k_degree_control (level_k p)).
Proof. intros p. vm_compute. repeat split; repeat constructor. Qed.
Lemma level_transcribable : forall p, transcribable (level_k p).
Proof.
  intros p. constructor.
  - vm_compute. lia.
  - vm_compute. reflexivity.
  - split; [unfold aligned; vm_compute; repeat split|].
    repeat (split; [apply in_order_ok; destruct p; vm_compute; reflexivity|]). apply in_order_ok; vm_compute; reflexivity.
  - apply nodup_ok. vm_compute. reflexivity.
  - split; [|split].
    + split; intros v [].
    + constructor.
    + constructor.
  - split; [reflexivity|]. intros v oe [E|[E|[]]]; injection E as <- <-; eexists; reflexivity.
  - reflexivity.
  - reflexivity.
  - discriminate.
Qed.
Lemma level_posed : forall p, posed (level_o p) (60 :: 61 :: m_u_par (k_model (level_k p))).
Proof.
  intros p. constructor.
  - split; [reflexivity|]. intros v oe [E|[]]; injection E as <- <-; eexists; reflexivity.
  - reflexivity.
  - apply nodup_ok. vm_compute. reflexivity.
  - intros e v He Hv M. cbn in He. assert (V : v = 60 \/ v = 61 \/ v = 70) by (destruct Hv as [<-|[<-|[<-|[]]]]; auto).
    repeat (destruct He as [<-|He]; [cbn in M; repeat match goal with H : _ \/ _ |- _ => destruct H end; subst; try contradiction; try discriminate|]);
      contradiction.
Qed.

Lemma level_rule : forall p, exact_rule (radau (k_degree (level_k p))) [(3 # 4)%Q; (1 # 4)%Q].
Proof.
  intros p. split; [reflexivity|]. cbn [k_degree level_k radau]. intros [|c0 [|c1 [|c2 [|c3 c]]]] L; try (cbn in L; lia);
    cbn; ring.
Qed.

Lemma level_step : forall p, (user_step (level_o p) 2 == 1)%Q.
Proof. intros p. vm_compute. reflexivity. Qed.

Section Moved.
  Variables (p : bool) (start a : Q).
  Let q := level_moved start a.
  Let c := level_inflow a.
  Lemma moved_sized : sized (level_k p) (radau (k_degree (level_k p))) q.
  Proof.
    constructor; intros; cbn; try reflexivity; try lia.
    - destruct el as [|el], i as [|i]; cbn; lia.
    - destruct el; reflexivity.
  Qed.
  Lemma moved_followed : followed (level_o p) (k_elements (level_k p)) (radau (k_degree_control (level_k p))) q c.
  Proof.
    intros el Hel i Hi. cbn in Hel, Hi. assert (i = 0) by lia. subst i. split; [destruct el; cbn; lia|].
    intros [|j] tau v Ht Hv; [|destruct j; discriminate]. cbn in Ht. injection Ht as <-.
    destruct el as [|el]; cbn in Hv; injection Hv as <-; cbn; ring.
  Qed.
  Lemma moved_collocated : user_collocated (fun _ x => x) (level_o p) (k_elements (level_k p)) q c (radau (k_degree (level_k p))).
  Proof.
    assert (Two : forall el, el < k_elements (level_k p) -> el = 0 \/ el = 1) by (intros el H; vm_compute in H; lia).
    constructor.
    - intros e [<-|[]]. cbn. ring.
    - intros el i Hel Hi. cbn in Hel, Hi. assert (el = 0) by lia. assert (i = 0) by lia. subst. cbn. ring.
    - intros el tau i v e Hel Ht He. destruct i as [|i]; [|destruct i; discriminate]. cbn in He. injection He as <- <-.
      destruct (Two _ Hel) as [-> | ->]; destruct Ht as [<-|[<-|[]]]; cbn; rewrite (level_step p); change (inject_Z 1) with 1%Q; ring.
    - intros el tau Hel Ht N. exfalso. apply N. reflexivity.
    - intros el i lo hi Hel Hl Hh. destruct i as [|i]; [|destruct i; discriminate]. cbn in Hl, Hh. injection Hl as <-. injection Hh as <-. split; exact I.
    - intros el j g w tau Hel Hg. destruct j; discriminate.
    - intros el j g w tau Hel Hg. destruct j; discriminate.
    - intros e [].
    - intros e [].
  Qed.
  Hypothesis Ha : (-2 <= a <= 2)%Q.
  Lemma moved_within : user_within (level_o p) (k_elements (level_k p)) q c (radau (k_degree_control (level_k p))) (radau (k_degree (level_k p))).
  Proof.
    constructor.
    - intros el tau i lo hi Hel Ht Hi Hlo Hhi. cbn in Hi. assert (i = 0) by lia. subst i. cbn in Hlo, Hhi. injection Hlo as <-. injection Hhi as <-. split; exact I.
    - intros el tau i lo hi Hel Ht Hi. cbn in Hi. lia.
    - intros el tau i lo hi Hel Ht Hi Hlo Hhi. cbn in Hi. assert (i = 0) by lia. subst i. cbn in Hlo, Hhi. injection Hlo as <-. injection Hhi as <-.
      destruct Ht as [<-|[]]. destruct el; cbn; lra.
    - intros j i v b lo hi Hj. destruct j; discriminate.
    - intros el j i v b lo hi Hel Hj. destruct j; discriminate.
  Qed.
End Moved.

(** ** Holding the level is optimal *)

Lemma qsum_nonneg : forall l, (forall x, In x l -> 0 <= x)%Q -> (0 <= qsum l)%Q.
Proof.
  induction l as [|x l IH]; intros H; cbn [qsum]; [lra|]. pose proof (H x (or_introl eq_refl)). pose proof (IH (fun y Hy => H y (or_intror Hy))). lra.
Qed.
Lemma level_cost_nonneg : forall p q c,
    (0 <= user_cost (fun _ x => x) (level_o p) (k_elements (level_k p)) q c (EConst 0) level_cost (EConst 0)
            (radau (k_degree (level_k p))) [3 # 4; 1 # 4])%Q.
Proof.
  intros p q c. unfold user_cost.
  assert (A : (0 <= qsum (map (fun el => user_step (level_o p) (k_elements (level_k p)) * qsum (map (fun tb =>
      snd tb * eval (fun _ x => x) (user_point (level_o p) (k_elements (level_k p)) q c el (fst tb)) level_cost)
      (combine (radau (k_degree (level_k p))) [3 # 4; 1 # 4]))) (seq 0 (k_elements (level_k p)))))%Q).
  { apply qsum_nonneg. intros x Hx. apply in_map_iff in Hx. destruct Hx as [el [<- _]].
    apply Qmult_le_0_compat; [vm_compute; discriminate|]. apply qsum_nonneg. intros x Hx. apply in_map_iff in Hx.
    destruct Hx as [[t b] [<- Hb]]. cbn [fst snd]. apply Qmult_le_0_compat.
    - cbn in Hb. destruct Hb as [E|[E|[]]]; injection E as <- <-; discriminate.
    - unfold level_cost. cbn [eval binop_eval]. match goal with |- (0 <= ?z * ?z)%Q => generalize z end. intros z. nra. }
  assert (B : (eval (fun _ x => x) (user_point (level_o p) (k_elements (level_k p)) q c (k_elements (level_k p) - 1) 1) (EConst 0) +
     qsum (map (fun el => eval (fun _ x => x) (user_point (level_o p) (k_elements (level_k p)) q c el 1) (EConst 0)) (seq 0 (k_elements (level_k p)))) == 0)%Q).
  { cbn. ring. }
  rewrite B. lra.
Qed.
Lemma held_costs_nothing : (user_cost (fun _ x => x) (level_o false) (k_elements (level_k false)) (level_moved 1 0) (level_inflow 0) (EConst 0) level_cost (EConst 0)
            (radau (k_degree (level_k false))) [3 # 4; 1 # 4] == 0)%Q.
Proof. vm_compute. reflexivity. Qed.

Lemma w_level_held : exists o k nl s r e env q c,
    level_problem false = Ok o /\ level_method false = Ok k /\
    direct_setting radau (fun _ e => e) k 1000 nl s r o 60 61 70 /\
    o_L o = [level_cost] /\ o_V o = [EConst 0] /\ o_S o = [EConst 0] /\ o_positive o = false /\
    exact_rule (radau (k_degree k)) [3 # 4; 1 # 4]%Q /\ nf nl = [e] /\
    describes k (radau (k_degree k)) env s r q /\ followed o (k_elements k) (radau (k_degree_control k)) q c /\
    feasible (fun _ x => x) env nl /\
    (forall env', map env' (all_mx s) = map env (all_mx s) -> feasible (fun _ x => x) env' nl ->
       (eval (fun _ x => x) env e <= eval (fun _ x => x) env' e)%Q) /\
    (eval (fun _ x => x) env e == 0)%Q.
Proof.
  assert (HF : respects (fun _ x => x)) by (intros f x y E; exact E).
  destruct (objective (fun _ x => x) radau (fun _ e => e) (level_k false) 1000 _ _ _ (level_o false) 60 61 70 HF (level_transcribable false)
    (level_points false) (le_n 1) (level_control_points false) (level_prepared false) (level_posed false) (level_created false) eq_refl
    level_cost (EConst 0) (EConst 0) _ eq_refl eq_refl eq_refl (level_rule false)) as [e [Ee He]].
  destruct (user_reached (fun _ x => x) radau (fun _ e => e) (level_k false) 1000 _ _ _ (level_o false) 60 61 70 HF (level_transcribable false)
    (level_points false) (le_n 1) (level_control_points false) (level_prepared false) (level_posed false) (level_created false) eq_refl
    level_cost (EConst 0) (EConst 0) _ eq_refl eq_refl eq_refl (level_rule false)) as [e' [Ee' He']].
  assert (e' = e) by congruence. subst e'.
  destruct (He' _ _ (moved_sized false 1 0) (moved_followed false 1 0) (moved_collocated false 1 0)) as [env [g [D [Hfe Hcost]]]].
  exists (level_o false), (level_k false), (fst (fst (level_nlp false))), (snd (fst (level_nlp false))), (snd (level_nlp false)), e, env,
    (with_cost (level_moved 1 0) (length (m_x (o_model (level_o false)))) g), (level_inflow 0).
  assert (Z : (eval (fun _ x => x) env e == 0)%Q) by (rewrite Hcost, held_costs_nothing; cbn; ring).
  split; [apply level_problem_is|]. split; [apply level_method_is|].
  split; [constructor; [apply level_transcribable | apply level_points | exact (le_n 1) | apply level_control_points | apply level_prepared |
          apply level_posed | apply level_created | reflexivity]|].
  split; [reflexivity|]. split; [reflexivity|]. split; [reflexivity|]. split; [reflexivity|].
  split; [apply level_rule|]. split; [exact Ee|]. split; [exact D|]. split; [exact (moved_followed false 1 0)|].
  assert (B : bounded (level_k false) env (snd (level_nlp false))).
  { apply (bounds_iff (fun _ x => x) radau (fun _ e => e) (level_k false) 1000 _ _ _ (level_o false) 60 61 70 HF (level_transcribable false)
      (level_points false) (le_n 1) (level_control_points false) (level_prepared false) (level_created false) env _ (level_inflow 0) eq_refl D
      (moved_followed false 1 0)).
    apply within_with_cost. apply moved_within. split; discriminate. }
  split; [apply Hfe, B|]. split; [|exact Z].
  intros env' Hsame Hf. rewrite Z.
  destruct (trajectory_exists radau (fun _ e => e) (level_k false) 1000 _ _ _ env' (level_transcribable false) (level_points false) (level_created false)) as [q' D'].
  pose proof (describes_fits (fun _ x => x) radau (fun _ e => e) (level_k false) 1000 _ _ _ (level_o false) HF (level_transcribable false)
      (level_points false) (le_n 1) (level_created false) env' q' D') as Fit.
  destruct (finite_choice (nat -> list Q) (fun _ => []) (fun el c => through (radau 1) 1 (q_u q' el) c) 2) as [c' Hc'].
  { intros el Hel. apply controls_exist; [intros [|i] [|j] Hi Hj; cbn in *; try lia; reflexivity|]. rewrite (fi_u _ _ _ Fit el Hel). reflexivity. }
  rewrite (He env' q' c' D' Hc').
  - pose proof (level_cost_nonneg false q' c') as P.
    assert (X : nth 1 (q_x0 q') 0%Q = nth 1 (q_x0 (level_moved 1 0)) 0%Q).
    { rewrite (de_x0 _ _ _ _ _ _ D'). pose proof (de_x0 _ _ _ _ _ _ D) as E0. cbn [with_cost q_x0] in E0. rewrite E0.
      f_equal. assert (I : incl (ps_x0 (snd (fst (level_nlp false)))) (all_mx (snd (fst (level_nlp false))))).
      { unfold all_mx. intros v Hv. rewrite !in_app_iff. tauto. }
      apply map_ext_in. intros v Hv. specialize (I v Hv). apply In_nth_error in I. destruct I as [i Ei].
      pose proof (f_equal (fun l => nth_error l i) Hsame) as Q1. cbn beta in Q1. rewrite !nth_error_map, Ei in Q1. cbn in Q1. congruence. }
    change (length (m_x (o_model (level_o false)))) with 1. rewrite X. cbn [level_moved q_x0 nth]. lra.
  - apply (w_C58_feasible (fun _ x => x) radau (fun _ e => e) (level_k false) 1000 _ _ _ HF (level_transcribable false) (level_points false) (level_created false) env' q' D'). exact Hf.
Qed.

(** ** A positive objective cuts off trajectories *)

Lemma w_C67_positive_objective : exists o k nl s r q c,
    level_problem true = Ok o /\ level_method true = Ok k /\ o_positive o = true /\
    direct_setting radau (fun _ e => e) k 1000 nl s r o 60 61 70 /\
    o_L o = [level_cost] /\ (forall env, 0 <= eval (fun _ x => x) env level_cost)%Q /\
    sized k (radau (k_degree k)) q /\ followed o (k_elements k) (radau (k_degree_control k)) q c /\
    nth 1 (q_x0 q) 0%Q = 0%Q /\
    user_collocated (fun _ x => x) o (k_elements k) q c (radau (k_degree k)) /\
    user_within o (k_elements k) q c (radau (k_degree_control k)) (radau (k_degree k)) /\
    forall env g, describes k (radau (k_degree k)) env s r (with_cost q 1 g) -> ~ feasible (fun _ x => x) env nl.
Proof.
  assert (HF : respects (fun _ x => x)) by (intros f x y E; exact E).
  exists (level_o true), (level_k true), (fst (fst (level_nlp true))), (snd (fst (level_nlp true))), (snd (level_nlp true)),
    (level_moved (1 # 2) (3 # 2)), (level_inflow (3 # 2)).
  split; [apply level_problem_is|]. split; [apply level_method_is|]. split; [reflexivity|].
  split; [constructor; [apply level_transcribable | apply level_points | exact (le_n 1) | apply level_control_points | apply level_prepared |
          apply level_posed | apply level_created | reflexivity]|].
  split; [reflexivity|].
  split.
  { intros env. unfold level_cost. cbn [eval binop_eval]. match goal with |- (0 <= ?z * ?z)%Q => generalize z end. intros z. nra. }
  split; [apply moved_sized|]. split; [apply moved_followed|]. split; [reflexivity|]. split; [apply moved_collocated|].
  split; [apply moved_within; split; discriminate|].
  intros env g D Hf.
  apply (feasible_iff (fun _ x => x) radau (fun _ e => e) (level_k true) 1000 _ _ _ (level_o true) 60 61 70 HF (level_transcribable true)
    (level_points true) (le_n 1) (level_control_points true) (level_prepared true) (level_posed true) (level_created true)
    env _ (level_inflow (3 # 2)) level_cost eq_refl D (moved_followed true (1 # 2) (3 # 2))) in Hf.
  destruct Hf as [B [_ [A1 _ A3]]].
  destruct (de_x _ _ _ _ _ _ D 0 1 ltac:(vm_compute; lia) ltac:(vm_compute; lia)) as [L V].
  change (q_x (with_cost (level_moved (1 # 2) (3 # 2)) 1 g) 0 1) with (g 0) in L, V.
  pose proof (A3 0 (1 # 3)%Q ltac:(vm_compute; lia) (or_introl eq_refl)) as R1.
  pose proof (A3 0 1%Q ltac:(vm_compute; lia) (or_intror (or_introl eq_refl))) as R2.
  change (q_x (with_cost (level_moved (1 # 2) (3 # 2)) 1 g) 0 (length (m_x (o_model (level_o true))))) with (g 0) in R1, R2, A1.
  change (nth (length (m_x (o_model (level_o true)))) (q_x0 (with_cost (level_moved (1 # 2) (3 # 2)) 1 g)) 0%Q) with 0%Q in A1.
  assert (E1 : (user_step (level_o true) (k_elements (level_k true)) * eval (fun _ x => x)
      (user_point (level_o true) (k_elements (level_k true)) (with_cost (level_moved (1 # 2) (3 # 2)) 1 g) (level_inflow (3 # 2)) 0 (1 # 3)) level_cost == 0)%Q)
    by (vm_compute; reflexivity).
  assert (E2 : (user_step (level_o true) (k_elements (level_k true)) * eval (fun _ x => x)
      (user_point (level_o true) (k_elements (level_k true)) (with_cost (level_moved (1 # 2) (3 # 2)) 1 g) (level_inflow (3 # 2)) 0 1) level_cost == 1)%Q)
    by (vm_compute; reflexivity).
  rewrite E1 in R1. rewrite E2 in R2.
  destruct (entry (r_x (snd (level_nlp true))) 0 1 1) as [v|] eqn:Ev; [|vm_compute in Ev; discriminate].
  pose proof (V 1 (1 # 3)%Q v eq_refl Ev) as P.
  pose proof (bd_x _ _ _ B 0 1 1 v (Fin 0) PInf Ev eq_refl eq_refl) as [Low _]. cbn [ext_le] in Low.
  destruct (g 0) as [|g0 [|g1 [|g2 [|g3 gs]]]]; try (cbn in L; lia);
    cbn [derivative scaled_from poly] in A1, R1, R2, P; change (inject_Z (Z.of_nat 1)) with 1%Q in *; change (inject_Z (Z.of_nat 2)) with 2%Q in *; lra.
Qed.

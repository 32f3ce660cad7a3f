(** The example of the method of one node. *)
From Coq Require Import String Qabs Lqa Setoid.
From Verif Require Import Base BaseProofs UtilModel ExprModel ExprProofs LagModel SysModel SysSpec NlpModel NlpSpec OcpModel OcpSpec
  DiscModel DiscSpec ColSpec ColTopProofs DirSpec DirColProofs DirTopProofs DirExProofs AugModel AugSpec AlsSpec AlsTopProofs AlsExProofs MulSpec MulExProofs
  ResModel NetModel DalModel DalSpec ExoModel ExoSpec AgrSpec NodSpec NodProofs LagSpec.
Local Open Scope list_scope.
Local Open Scope nat_scope.

Definition relay_s : exo := Eval vm_compute in
  match relay_node as x return (match x with Ok _ => exo | Raise _ => unit end) with Ok o => o | Raise _ => tt end.
Definition relay_s' : exo := Eval vm_compute in
  match relay_ready as x return (match x with Ok _ => exo | Raise _ => unit end) with Ok o => o | Raise _ => tt end.
Definition relay_rx : relaxing := Eval vm_compute in
  match relay_relaxed as x return (match x with Ok _ => relaxing | Raise _ => unit end) with Ok o => o | Raise _ => tt end.
Definition relay_k : method := Eval vm_compute in
  match relay_method as x return (match x with Ok _ => method | Raise _ => unit end) with Ok o => o | Raise _ => tt end.
Definition relay_nlp : nlp * par_syms * traj sym := Eval vm_compute in
  match create_optimization_problem (collocation_discretize radau (fun _ e => e) relay_k) relay_k 1000 as x
        return (match x with Ok _ => (nlp * par_syms * traj sym)%type | Raise _ => unit end) with Ok k => k | Raise _ => tt end.
Lemma relay_relaxation : relaxation same_expr radau relay_al (connections (e_relax relay_s')) (e_problem relay_s') 200 relay_rx.
Proof.
  constructor.
  - exact same_expr_spec.
  - constructor; try reflexivity.
    + split; repeat constructor; cbn; intuition discriminate.
    + unfold aligned. cbn. repeat match goal with |- _ /\ _ => split end; try reflexivity; exact I.
    + split; intros v [].
    + split.
      * intros e v He Hv. cbn in He. one_of; subst; cbn in Hv; one_of; subst; try contradiction; lia.
      * intros v [<-|[]]. lia.
    + split; repeat constructor; intros [].
    + intros i w [<-|[]] H. cbn in H. injection H as <-. reflexivity.
  - constructor; [split; reflexivity|cbn; lia|]. split; [reflexivity|]. exact radau_distinct.
  - vm_compute. reflexivity.
Qed.
Lemma relay_setting : direct_setting radau (fun _ e => e) relay_k 1000 (fst (fst relay_nlp)) (snd (fst relay_nlp)) (snd relay_nlp)
    (rx_problem relay_rx) 60 61 300.
Proof.
  constructor.
  - constructor.
    + vm_compute. lia.
    + vm_compute. reflexivity.
    + split; [unfold aligned; vm_compute; repeat split|].
      repeat (split; [apply in_order_ok; vm_compute; reflexivity|]). apply in_order_ok; vm_compute; reflexivity.
    + apply nodup_ok. vm_compute. reflexivity.
    + split; [|split]; [split; intros v []|constructor|constructor].
    + split; [reflexivity|]. intros v oe [E|[E|[]]]; injection E as <- <-; eexists; reflexivity.
    + reflexivity.
    + reflexivity.
    + discriminate.
  - vm_compute. repeat split; repeat constructor.
  - vm_compute. lia.
  - vm_compute. repeat split; repeat constructor.
  - vm_compute. reflexivity.
  - constructor.
    + split; [reflexivity|]. intros v oe [E|[]]; injection E as <- <-; eexists; reflexivity.
    + reflexivity.
    + apply nodup_ok. vm_compute. reflexivity.
    + intros e v He Hv M. cbn in He. cbn in Hv.
      one_of; subst; cbn in M; one_of; subst; try contradiction; try discriminate.
  - vm_compute. reflexivity.
  - reflexivity.
Qed.
Lemma relay_connected : connected_node same_expr radau (fun _ e => e) relay_options relay_net 1 relay_al relay_s relay_s' 200 relay_rx
    relay_k 1000 (fst (fst relay_nlp)) (snd (fst relay_nlp)) (snd relay_nlp) 60 61 300.
Proof.
  constructor.
  - split; reflexivity.
  - vm_compute. reflexivity.
  - exact relay_relaxation.
  - exact relay_setting.
  - split; reflexivity.
  - reflexivity.
  - split; reflexivity.
  - intros e v He Hv M. cbn in He. cbn in Hv. one_of; subst; cbn in M; one_of; subst; try contradiction; try discriminate.
Qed.

(** ** An update *)

(** State 1, output 3, second input 0 and first input 5; multipliers 2 and 3. *)
Definition relay_q : trajectory :=
  mkTrajectory (fun _ i => match i with 0 => [1%Q] | _ => [] end) (fun _ _ => [3%Q]) (fun _ => [0%Q; 5%Q; 0%Q; 5%Q])
    [1%Q; 1%Q] (fun _ => [4; 4; 7; 8; 2; 3; 2; 3]%Q) [] [1%Q; 0%Q] [].
Definition relay_c (el i : nat) : list Q := match i with 0 => [0%Q] | _ => [5%Q] end.
Definition relay_solution : traj Q :=
  mkTraj [repeat [1%Q; 0%Q] 3] [[[3%Q]; [3%Q]]] [[[0%Q; 5%Q]; [0%Q; 5%Q]]] [] [] [[]].
Definition relay_theta : theta Q := [(0, [4; 4; 7; 8]%Q)].
Definition relay_state : aug_state := start_aug relay_al relay_rx (Some [(0, [2%Q; 3%Q; 2%Q; 3%Q])]).
Definition relay_augmented : augmented :=
  mkAugmented relay_k (seq 2000 (collocation_size relay_k)) (rx_alg relay_rx) (rx_eq relay_rx) (rx_mu_sym relay_rx) (rx_nu_pol relay_rx).
Definition relay_updated : aug_state := Eval vm_compute in
  fst (AugModel.update_parameters ident relay_al (create_nu_update_func radau relay_augmented) 1 None (Some relay_theta) (flatten relay_solution) relay_state).
Definition relay_errors : list Q := Eval vm_compute in
  match snd (AugModel.update_parameters ident relay_al (create_nu_update_func radau relay_augmented) 1 None (Some relay_theta) (flatten relay_solution) relay_state) with
  | Ok e => e | Raise _ => [] end.
Lemma one_element : forall el, el < k_elements relay_k -> el = 0.
Proof. intros el H. cbn in H. lia. Qed.

Lemma relay_known : Forall (far_known relay_net) (far_ends relay_net 1).
Proof. constructor; [|constructor; [|constructor]]; (split; [left; reflexivity|]); (constructor; [intros []|constructor]). Qed.
Lemma relay_full : full_results relay_options relay_results.
Proof.
  intros b r el H He. unfold result_of in H. cbn in H.
  destruct b as [|[|[|b]]]; cbn in H; try discriminate. injection H as <-. cbn in He. assert (el = 0%nat) by lia. subst. split; reflexivity.
Qed.
Lemma relay_given : given relay_options relay_net relay_results 1 relay_theta.
Proof. split; [right; reflexivity|]. intros el Hel. cbn in Hel. assert (el = 0) by lia. subst el. vm_compute. reflexivity. Qed.
Lemma relay_fitting : fitting relay_augmented (m_p (o_model (e_problem relay_s'))) (m_theta (o_model (e_problem relay_s'))) relay_state None (Some relay_theta).
Proof.
  constructor; try reflexivity; intros el Hel; apply one_element in Hel; subst el; [reflexivity|]. eexists. split; reflexivity.
Qed.
Lemma relay_shape : collocation_shape relay_k relay_solution.
Proof. vm_compute. repeat split; repeat constructor. Qed.
Lemma relay_reads : reads relay_k (radau 2) relay_solution (given_p None ++ st_mu relay_state)
  (fun el => given_in (Some relay_theta) el ++ nu_in relay_state el) relay_q.
Proof.
  constructor; try reflexivity.
  - intros el i Hel Hi. cbn in Hi. split; [destruct i as [|[|i]]; cbn; lia|]. intros j tau v Hj Hv.
    apply one_element in Hel. subst el. destruct i as [|[|i]]; try lia; destruct j as [|[|[|j]]]; try (destruct j; discriminate Hj);
      cbn in Hj, Hv; injection Hj as <-; injection Hv as <-; cbn; reflexivity.
  - intros el i Hel Hi. cbn in Hi. split; [cbn; lia|]. intros j tau v Hj Hv.
    apply one_element in Hel. subst el. assert (i = 0) by lia. subst i. destruct j as [|[|j]]; try (destruct j; discriminate Hj);
      cbn in Hj, Hv; injection Hj as <-; injection Hv as <-; cbn; reflexivity.
  - intros el l Hl. destruct el as [|el]; [|destruct el; discriminate]; cbn in Hl; injection Hl as <-; reflexivity.
  - intros el Hel. apply one_element in Hel. subst el. reflexivity.
Qed.
Lemma relay_followed : followed (rx_problem relay_rx) 1 (radau 2) relay_q relay_c.
Proof.
  intros el Hel i Hi. cbn in Hi. split; [destruct i; cbn; lia|].
  intros j tau v Ht Hv. assert (Ei : i = 0 \/ i = 1) by lia. destruct j as [|[|j]]; [| |destruct j; discriminate]; cbn in Ht; injection Ht as <-;
    destruct Ei as [-> | ->]; cbn in Hv; injection Hv as <-; vm_compute; reflexivity.
Qed.
Lemma relay_update : AugModel.update_parameters ident relay_al (create_nu_update_func radau relay_augmented) 1 None (Some relay_theta) (flatten relay_solution) relay_state
    = (relay_updated, Ok relay_errors).
Proof. vm_compute. reflexivity. Qed.

Lemma w_relay_raised : exists s s' rx k nl ps r vars st th tr q c' st' errors d,
    relay_node = Ok s /\ relay_ready = Ok s' /\ relay_relaxed = Ok rx /\ relay_method = Ok k /\
    connected_node same_expr radau (fun _ e => e) relay_options relay_net 1 relay_al s s' 200 rx k 1000 nl ps r 60 61 300 /\
    Forall (far_known relay_net) (far_ends relay_net 1) /\ full_results relay_options relay_results /\
    given relay_options relay_net relay_results 1 th /\ NoDup vars /\
    let ag := mkAugmented k vars (rx_alg rx) (rx_eq rx) (rx_mu_sym rx) (rx_nu_pol rx) in
    fitting ag (m_p (o_model (e_problem s'))) (m_theta (o_model (e_problem s'))) st None (Some th) /\ collocation_shape k tr /\
    reads k (radau (k_degree k)) tr (given_p None ++ st_mu st) (fun el => given_in (Some th) el ++ nu_in st el) q /\
    followed (rx_problem rx) (k_elements k) (radau (k_degree_control k)) q c' /\
    al_skip_compute relay_al = false /\ al_skip_nu relay_al = false /\ al_improve relay_al = false /\
    AugModel.update_parameters (fun _ x => x) relay_al (create_nu_update_func radau ag) (k_elements k) None (Some th) (flatten tr) st = (st', Ok errors) /\
    st_nu_tilde st' = Some d /\
    map (fun i => Qred (node_value rx (k_elements k) (radau (k_degree k)) relay_net 1 (q, c') 0 0 i)) [0; 1] = [5; 3]%Q /\
    map (multiplier (st_nu st) 2 0 0) [0; 1] = [Some 2; Some 3]%Q /\ st_mu st = [1; 1]%Q /\
    map (fun x => option_map Qred (multiplier d 2 0 0 x)) [0; 1] = [Some 3; Some 7]%Q /\
    map (fun x => option_map Qred (multiplier d 2 0 1 x)) [0; 1] = [Some 3; Some 8]%Q.
Proof.
  exists relay_s, relay_s', relay_rx, relay_k, (fst (fst relay_nlp)), (snd (fst relay_nlp)), (snd relay_nlp), (seq 2000 (collocation_size relay_k)),
    relay_state, relay_theta, relay_solution, relay_q, relay_c, relay_updated, relay_errors,
    (match st_nu_tilde relay_updated with Some d => d | None => [] end).
  do 4 (split; [vm_compute; reflexivity|]).
  split; [exact relay_connected|]. split; [exact relay_known|]. split; [exact relay_full|]. split; [exact relay_given|].
  split; [apply seq_NoDup|]. cbv zeta.
  split; [exact relay_fitting|]. split; [exact relay_shape|]. split; [exact relay_reads|]. split; [exact relay_followed|].
  do 3 (split; [reflexivity|]). split; [exact relay_update|]. split; [reflexivity|].
  split; [vm_compute; reflexivity|]. split; [vm_compute; reflexivity|]. split; [vm_compute; reflexivity|]. split; vm_compute; reflexivity.
Qed.

(** ** A minimum *)

(** State 1, output 1, second input 0 and first input 1, which the other nodes want as well;
    multipliers 0. *)
Definition calm_q : trajectory :=
  mkTrajectory (fun _ i => match i with 0 => [1%Q] | _ => [] end) (fun _ _ => [1%Q]) (fun _ => [0%Q; 1%Q; 0%Q; 1%Q])
    [1%Q; 1%Q] (fun _ => [1; 1; 1; 1; 0; 0; 0; 0]%Q) [] [1%Q; 0%Q] [].
Definition calm_c (el i : nat) : list Q := match i with 0 => [] | _ => [1%Q] end.
Definition calm_q1 : trajectory :=
  mkTrajectory (fun _ i => match i with 0 => [1%Q] | _ => [] end) (fun _ _ => [1%Q]) (fun _ => [0%Q; 0%Q])
    [] (fun _ => [1; 1; 1; 1]%Q) [] [1%Q; 0%Q] [].
Definition calm_c1 (el i : nat) : list Q := [].
Definition calm_theta : theta Q := [(0, [1; 1; 1; 1]%Q)].
Definition no_multipliers (el j i : nat) : Q := 0%Q.
Definition relay_rq := connections (e_relax relay_s').
Definition relay_l' : expr := Eval vm_compute in hd (EConst 0) (o_L (rx_problem relay_rx)).

Lemma calm_sized : sized relay_k (radau 2) calm_q.
Proof. constructor; intros; cbn; try reflexivity; try lia. destruct i; cbn; lia. Qed.
Lemma calm_followed : followed (rx_problem relay_rx) 1 (radau 2) calm_q calm_c.
Proof.
  intros el Hel i Hi. cbn in Hi. split; [destruct i; cbn; lia|].
  intros j tau v Ht Hv. assert (Ei : i = 0 \/ i = 1) by lia. destruct j as [|[|j]]; [| |destruct j; discriminate]; cbn in Ht; injection Ht as <-;
    destruct Ei as [-> | ->]; cbn in Hv; injection Hv as <-; vm_compute; reflexivity.
Qed.
Lemma calm_collocated : user_collocated ident (rx_problem relay_rx) 1 calm_q calm_c (radau 2).
Proof.
  constructor.
  - intros e [<-|[]]. cbn. ring.
  - intros el i Hel Hi. lia.
  - intros el tau i v e Hel Ht He. destruct i as [|i]; [|destruct i; discriminate]. cbn in He. injection He as <- <-.
    assert (el = 0) by lia. subst el. destruct Ht as [<-|[<-|[]]]; vm_compute; reflexivity.
  - intros el tau Hel Ht N e [<-|[]]. assert (el = 0) by lia. subst el. destruct Ht as [<-|[<-|[]]]; vm_compute; reflexivity.
  - intros el i lo hi Hel Hl Hh. destruct i as [|[|i]]; [| |destruct i; discriminate]; cbn in Hl, Hh; injection Hl as <-; injection Hh as <-; split; exact I.
  - intros el j g w tau Hel Hg. destruct j; discriminate.
  - intros el j g w tau Hel Hg. destruct j; discriminate.
  - intros e [].
  - intros e [].
Qed.
Lemma calm_within : user_within (rx_problem relay_rx) 1 calm_q calm_c (radau 2) (radau 2).
Proof.
  constructor.
  - intros el tau i lo hi Hel Ht Hi Hlo Hhi. cbn in Hi. assert (i = 0) by lia. subst i. cbn in Hlo, Hhi. injection Hlo as <-. injection Hhi as <-. split; exact I.
  - intros el tau i lo hi Hel Ht Hi Hlo Hhi. cbn in Hi. assert (i = 0) by lia. subst i. cbn in Hlo, Hhi. injection Hlo as <-. injection Hhi as <-. split; exact I.
  - intros el tau i lo hi Hel Ht Hi Hlo Hhi. cbn in Hi. assert (Ei : i = 0 \/ i = 1) by lia.
    destruct Ei as [-> | ->]; cbn in Hlo, Hhi; injection Hlo as <-; injection Hhi as <-; split; exact I.
  - intros j i v b lo hi Hj. destruct j; discriminate.
  - intros el j i v b lo hi Hel Hj. destruct j; discriminate.
Qed.
Lemma calm_same : forall g, same_trajectory (e_problem relay_s') (freed (e_problem relay_s') relay_rq) 1 calm_q1 calm_c1 (with_cost calm_q 1 g) calm_c.
Proof.
  intros g. constructor.
  - intros el i Hel Hi. cbn in Hi. assert (i = 0) by lia. subst i. reflexivity.
  - intros el i j Hel Hj. destruct j as [|j]; [injection Hj as <-; reflexivity|destruct j; discriminate].
  - intros el i j Hel Hj. destruct j as [|j]; [injection Hj as <-; reflexivity|destruct j; discriminate].
  - intros el i Hel Hi. cbn in Hi. assert (i = 0) by lia. subst i. reflexivity.
  - intros el i Hel Hi. cbn in Hi. assert (i = 0) by lia. subst i. reflexivity.
  - reflexivity.
  - intros el Hel. reflexivity.
  - repeat split; reflexivity.
Qed.
Lemma calm_parameters : forall q, q_p q = [1; 1]%Q -> (forall el, el < 1 -> q_theta q el = [1; 1; 1; 1; 0; 0; 0; 0]%Q) ->
  node_parameters 1 2 2 0 calm_theta no_multipliers [1; 1]%Q q.
Proof.
  intros q Hp Ht. split; [rewrite Hp; reflexivity|]. intros el Hel. rewrite (Ht el Hel). assert (el = 0) by lia. subst el. reflexivity.
Qed.
Lemma square_nonneg : forall x : Q, (0 <= x * x)%Q.
Proof. intros x. nra. Qed.
Lemma calm_own_nonneg : forall q c, (0 <= user_cost ident (e_problem relay_s') 1 q c (EConst 0) relay_cost (EConst 0) (radau 2) [3 # 4; 1 # 4])%Q.
Proof.
  intros q c. unfold user_cost.
  match goal with |- (0 <= _ + ?z)%Q => assert (A : (0 <= z)%Q) end.
  { apply qsum_nonneg. intros x Hx. apply in_map_iff in Hx. destruct Hx as [el [<- Hel]].
    apply Qmult_le_0_compat; [vm_compute; discriminate|]. apply qsum_nonneg. intros x Hx. apply in_map_iff in Hx.
    destruct Hx as [[t b] [<- Hb]]. cbn [fst snd]. apply Qmult_le_0_compat.
    - cbn in Hb. destruct Hb as [E|[E|[]]]; injection E as <- <-; discriminate.
    - unfold relay_cost. cbn [eval binop_eval]. apply square_nonneg. }
  match goal with |- (0 <= ?y + _)%Q => assert (B : (y == 0)%Q) by (cbn; ring) end.
  rewrite B. lra.
Qed.
Lemma calm_charge_nonneg : forall x, (0 <= charge relay_options relay_net node_trajectory (node_value relay_rx 1 (radau 2) relay_net)
    (fun _ j => user_step (rx_problem relay_rx) 1 * nth j [3 # 4; 1 # 4] 0) 1%nat no_multipliers [1; 1] calm_theta x)%Q.
Proof.
  intros x. unfold charge. rewrite sum_qsum. apply qsum_nonneg. intros y Hy. apply in_map_iff in Hy. destruct Hy as [i [<- Hi]].
  unfold integral. rewrite sum_qsum. apply qsum_nonneg. intros y Hy. apply in_map_iff in Hy. destruct Hy as [el [<- Hel]].
  rewrite sum_qsum. apply qsum_nonneg. intros y Hy. apply in_map_iff in Hy. destruct Hy as [j [<- Hj]]. cbv zeta.
  apply Qmult_le_0_compat.
  - apply in_seq in Hj. cbn in Hj. destruct j as [|[|j]]; [| |lia]; vm_compute; discriminate.
  - match goal with |- (0 <= _ * ?d + _)%Q => generalize d end. intros d. unfold no_multipliers.
    apply in_seq in Hi. cbn in Hi. pose proof (square_nonneg d). destruct i as [|[|i]]; [| |lia]; cbn [nth]; lra.
Qed.

Lemma calm_costs_nothing : (user_cost ident (rx_problem relay_rx) 1 calm_q calm_c (EConst 0) relay_l' (EConst 0) (radau 2) [3 # 4; 1 # 4] == 0)%Q.
Proof. vm_compute. reflexivity. Qed.
Lemma ident_respects : respects ident.
Proof. intros f x y E. exact E. Qed.

Lemma w_relay_best : exists s s' rx k nl ps r e env q c' q1 c1,
    relay_node = Ok s /\ relay_ready = Ok s' /\ relay_relaxed = Ok rx /\ relay_method = Ok k /\
    connected_node same_expr radau (fun _ e => e) relay_options relay_net 1 relay_al s s' 200 rx k 1000 nl ps r 60 61 300 /\
    o_L (e_problem s') = [relay_cost] /\ o_V (e_problem s') = [EConst 0] /\ o_S (e_problem s') = [EConst 0] /\
    exact_rule (radau (k_degree k)) [3 # 4; 1 # 4]%Q /\ o_positive (rx_problem rx) = false /\ nf nl = [e] /\
    describes k (radau (k_degree k)) env ps r q /\ followed (rx_problem rx) (k_elements k) (radau (k_degree_control k)) q c' /\
    feasible (fun _ x => x) env nl /\
    (forall env', map env' (all_mx ps) = map env (all_mx ps) -> feasible (fun _ x => x) env' nl ->
       (eval (fun _ x => x) env e <= eval (fun _ x => x) env' e)%Q) /\
    same_trajectory (e_problem s') (freed (e_problem s') (connections (e_relax s'))) (k_elements k) q1 c1 q c' /\
    node_parameters (k_elements k) (k_degree k) (length (own_ends relay_net 1)) (length (m_p (o_model (e_problem s'))))
      [(0, [1; 1; 1; 1]%Q)] (fun _ _ _ => 0%Q) [1; 1]%Q q.
Proof.
  destruct (w_C67_objective _ radau (fun _ e => e) relay_k 1000 _ _ _ (rx_problem relay_rx) 60 61 300 relay_l' (EConst 0) (EConst 0) _ ident_respects relay_setting
    eq_refl eq_refl eq_refl drain_rule) as [e [Ee He]].
  destruct (w_C67_every_trajectory _ radau (fun _ e => e) relay_k 1000 _ _ _ (rx_problem relay_rx) 60 61 300 relay_l' (EConst 0) (EConst 0) _ ident_respects relay_setting
    eq_refl eq_refl eq_refl drain_rule) as [e' [Ee' He']].
  assert (e' = e) by congruence. subst e'.
  destruct (He' _ _ calm_sized calm_followed calm_collocated) as [env [g [D [Hfe Hcost]]]].
  change (length (m_x (o_model (rx_problem relay_rx)))) with 1 in D.
  exists relay_s, relay_s', relay_rx, relay_k, (fst (fst relay_nlp)), (snd (fst relay_nlp)), (snd relay_nlp), e, env,
    (with_cost calm_q 1 g), calm_c, calm_q1, calm_c1.
  assert (Z : (eval ident env e == 0)%Q).
  { unfold ident. rewrite Hcost. change (k_elements relay_k) with 1. change (radau (k_degree relay_k)) with (radau 2). rewrite calm_costs_nothing. cbn. ring. }
  do 4 (split; [vm_compute; reflexivity|]). split; [exact relay_connected|].
  do 3 (split; [reflexivity|]). split; [exact drain_rule|]. split; [reflexivity|]. split; [exact Ee|]. split; [exact D|]. split; [exact calm_followed|].
  assert (B : bounded relay_k env (snd relay_nlp)).
  { apply (w_C67_bounds _ radau (fun _ e => e) relay_k 1000 _ _ _ (rx_problem relay_rx) 60 61 300 ident_respects relay_setting eq_refl env _ calm_c D calm_followed).
    apply within_with_cost. exact calm_within. }
  split; [apply Hfe, B|].
  split; [|split; [exact (calm_same g)|apply calm_parameters; [reflexivity|intros el _; reflexivity]]].
  intros env' Hsame Hf. change (eval ident env e <= eval ident env' e)%Q. rewrite Z. pose proof relay_setting as [A1 A2 A3 A4 A5 A6 A7 A8].
  destruct (trajectory_exists radau (fun _ e => e) relay_k 1000 _ _ _ env' A1 A2 A7) as [q2 D2].
  pose proof (describes_fits ident radau (fun _ e => e) relay_k 1000 _ _ _ (rx_problem relay_rx) ident_respects A1 A2 A3 A7 env' q2 D2) as Fit.
  destruct (ColTopProofs.finite_choice (nat -> list Q) (fun _ => []) (fun el c => through (radau 2) 2 (q_u q2 el) c) 1) as [c2 Hc2].
  { intros el Hel. apply controls_exist; [exact radau_distinct|].
    rewrite (fi_u _ _ _ Fit el Hel). reflexivity. }
  change (0 <= eval ident env' e)%Q. rewrite (He env' q2 c2 D2 Hc2 Hf).
  assert (P1 : q_p q2 = [1; 1]%Q).
  { change [1; 1]%Q with (q_p (with_cost calm_q 1 g)). pose proof (de_p _ _ _ _ _ _ D2) as C2. pose proof (de_p _ _ _ _ _ _ D) as C1.
    rewrite (same_values _ env env' (ps_p (snd (fst relay_nlp))) Hsame) in C2 by (unfold all_mx; intros v Hv; rewrite !in_app_iff; tauto).
    apply (chosen_given _ _ _ _ _ C2). eexists. exact C1. }
  assert (P2 : forall el, (el < 1)%nat -> q_theta q2 el = [1; 1; 1; 1; 0; 0; 0; 0]%Q).
  { intros el Hel. change [1; 1; 1; 1; 0; 0; 0; 0]%Q with (q_theta (with_cost calm_q 1 g) el).
    destruct (theta_given ident radau (fun _ e => e) relay_k 1000 _ _ _ (rx_problem relay_rx) ident_respects A1 A2 A3 A7 el Hel) as [gv [d [Eg Ed]]].
    pose proof (de_theta _ _ _ _ _ _ D2 el gv d Eg Ed) as C2. pose proof (de_theta _ _ _ _ _ _ D el gv d Eg Ed) as C1.
    rewrite (same_values _ env env' gv Hsame) in C2.
    - apply (chosen_given _ _ _ _ _ C2). eexists. exact C1.
    - unfold all_mx. intros v Hv. rewrite !in_app_iff. right. left. apply in_concat. exists gv. split; [exact (nth_error_In _ _ Eg)|exact Hv]. }
  destruct (t_trajectory ident same_expr radau (fun _ e => e) relay_al (connections (e_relax relay_s')) (e_problem relay_s') 200 relay_rx relay_k 1000 _ _ _ 60 61 300
    ident_respects relay_relaxation relay_setting env' q2 c2 D2 Hc2) as [qn [cn [Sn _]]].
  destruct (n_cost ident same_expr radau (fun _ e => e) relay_options relay_net 1 relay_al relay_s relay_s' 200 relay_rx relay_k 1000 _ _ _ 60 61 300
    ident_respects relay_connected relay_cost (EConst 0) (EConst 0) [3 # 4; 1 # 4]%Q eq_refl eq_refl eq_refl eq_refl) as [l' [E1 [_ [_ HC]]]].
  assert (l' = relay_l') by (injection E1; intros; subst; reflexivity). subst l'.
  assert (X : nth 1 (q_x0 q2) 0%Q = 0%Q).
  { change 0%Q with (nth 1 (q_x0 (with_cost calm_q 1 g)) 0%Q) at 2. rewrite (de_x0 _ _ _ _ _ _ D2), (de_x0 _ _ _ _ _ _ D).
    rewrite (same_values _ env env' (ps_x0 (snd (fst relay_nlp))) Hsame) by (unfold all_mx; intros v Hv; rewrite !in_app_iff; tauto). reflexivity. }
  change (length (m_x (o_model (rx_problem relay_rx)))) with 1. rewrite X.
  rewrite (HC qn cn q2 c2 calm_theta no_multipliers [1; 1]%Q Fit Sn (calm_parameters q2 P1 P2)).
  change (k_elements relay_k) with 1. change (radau (k_degree relay_k)) with (radau 2).
  pose proof (calm_own_nonneg qn cn). pose proof (calm_charge_nonneg (q2, c2)). lra.
Qed.

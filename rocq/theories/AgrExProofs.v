(** Examples and witnesses for agreement at the connections. *)
From Coq Require Import String Permutation Lqa Lia.
From Verif Require Import Base UtilModel ExprModel SysModel NlpModel NlpSpec SimModel DiscModel ResModel NetModel DalModel ExoModel.
From Verif Require Import DalSpec ExoSpec AgrSpec BaseProofs UtilProofs DalProofs DalLoopProofs DalUpdateProofs DalMoreProofs ExoProofs AgrProofs AgrOptProofs.
Local Open Scope list_scope.
Local Open Scope nat_scope.

Notation duo_agreed opts := (agreed duo_state duo_next snd opts link_net).
Notation duo_uses := (uses_next duo_state duo_used duo_next snd link_net duo_real).
Notation duo_raises opts := (raises duo_state duo_used duo_next snd opts link_net duo_real).

Lemma duo_nodes : forall a, In a (dn_nodes link_net) -> a = 0 \/ a = 1.
Proof. intros a [<-|[<-|[]]]; auto. Qed.

Lemma duo_takes : duo_uses (duo_solve (fun _ => true)).
Proof.
  intros a m th g m' r _ H. unfold duo_solve in H. destruct (Qle_bool 0 (nth 0 (snd m) 0%Q)); [|discriminate].
  set (v := duo_best a (snd (fst m)) (nth 0 (snd m) 0%Q) (duo_given th)) in H.
  assert (m' = ((snd (fst m), snd (fst m)), snd m)) by congruence. assert (r = mkNodeResult true v [v] (link_data v)) by congruence. subst m' r.
  split; [reflexivity|]. split; [exists v; split; reflexivity|]. split; [reflexivity|]. intros el k i. split; reflexivity.
Qed.

(** What a node is given is the value at the other end. *)
Lemma duo_given_0 : forall opts last th q, do_elements opts = 1 -> do_degree opts = 1 ->
  (forall b r, In b (dn_nodes link_net) -> result_of last b = Some r -> duo_real b r) -> given opts link_net last 0 th ->
  far_value link_net last 0 0 (FarInput 1 20) q -> duo_given th = q.
Proof.
  intros opts last th q He Hd R [_ G] [i [[Hi _] Hq]]. specialize (G 0). rewrite He in G. specialize (G ltac:(lia)).
  unfold duo_given. cbn in Hi. assert (i = 0) by (destruct i as [|[|i]]; cbn in Hi; congruence). subst i.
  destruct (dget Nat.eqb 0 th) as [l|]; rewrite G || (unfold received in G; cbn in G);
    unfold received; cbn -[result_of] in *; destruct (result_of last 1) as [r|] eqn:E1.
  all: try rewrite Hd in *; cbn in *.
  - destruct (R 1 r (or_intror (or_introl eq_refl)) E1) as [v [_ D]]. rewrite D in *. cbn in *. congruence.
  - congruence.
  - destruct (R 1 r (or_intror (or_introl eq_refl)) E1) as [v [_ D]]. rewrite D in *. cbn in *. congruence.
  - congruence.
Qed.
Lemma duo_given_1 : forall opts last th q, do_elements opts = 1 -> do_degree opts = 1 ->
  (forall b r, In b (dn_nodes link_net) -> result_of last b = Some r -> duo_real b r) -> given opts link_net last 1 th ->
  far_value link_net last 0 0 (FarOutput 0 10) q -> duo_given th = q.
Proof.
  intros opts last th q He Hd R [_ G] [i [[Hi _] Hq]]. specialize (G 0). rewrite He in G. specialize (G ltac:(lia)).
  unfold duo_given. cbn in Hi. assert (i = 0) by (destruct i as [|[|i]]; cbn in Hi; congruence). subst i.
  destruct (dget Nat.eqb 0 th) as [l|]; rewrite G || (unfold received in G; cbn in G);
    unfold received; cbn -[result_of] in *; destruct (result_of last 0) as [r|] eqn:E1.
  all: try rewrite Hd in *; cbn in *.
  - destruct (R 0 r (or_introl eq_refl) E1) as [v [_ D]]. rewrite D in *. cbn in *. congruence.
  - congruence.
  - destruct (R 0 r (or_introl eq_refl) E1) as [v [_ D]]. rewrite D in *. cbn in *. congruence.
  - congruence.
Qed.
Lemma duo_own : forall last a r e q, result_of last a = Some r -> duo_real a r ->
  (e = FarOutput a 10 /\ a = 0 \/ e = FarInput a 20 /\ a = 1) -> far_value link_net last 0 0 e q -> q = nth 0 (nr_x r) 0%Q.
Proof.
  intros last a r e q Hr [v [X D]] He Hq. destruct He as [[-> ->]|[-> ->]]; destruct Hq as [i [[Hi _] Hq]]; cbn -[result_of] in Hi, Hq;
    assert (i = 0) by (destruct i as [|[|i]]; cbn in Hi; congruence); subst i; rewrite Hr, D in Hq; cbn in Hq; rewrite X; exact Hq.
Qed.

Lemma duo_step : forall opts {E} (step : addr -> duo_state -> theta Q -> list Q -> exogenous -> duo_state * res E),
  do_elements opts = 1 -> do_degree opts = 1 ->
  (forall a m th x ex m' e, step a m th x ex = (m', Ok e) -> m' = fst (duo_update a m th x ex)) -> duo_raises opts (fun q => q) step.
Proof.
  intros opts E step He Hd Hs last a r m th ex m' e Ha Hr R G H. apply Hs in H. subst m'. cbn. split; [symmetry; apply map_id|].
  intros el k i own far v w Hel Hk Ho Hf Hv Hw. assert (el = 0) by lia. assert (k = 0) by lia. subst el k.
  destruct (duo_nodes a Ha) as [-> | ->]; cbn in Ho, Hf; destruct i as [|[|i]]; cbn in Ho, Hf; try discriminate;
    assert (Eo : own = own) by reflexivity; injection Ho as <-; injection Hf as <-; unfold duo_gap; cbn [Nat.eqb difference].
  - rewrite (duo_given_0 opts last th w He Hd R G Hw), (duo_own last 0 r _ v Hr (R 0 r Ha Hr) (or_introl (conj eq_refl eq_refl)) Hv). reflexivity.
  - rewrite (duo_given_1 opts last th w He Hd R G Hw), (duo_own last 1 r _ v Hr (R 1 r Ha Hr) (or_intror (conj eq_refl eq_refl)) Hv). reflexivity.
Qed.
Lemma duo_updates : forall opts, do_elements opts = 1 -> do_degree opts = 1 -> duo_raises opts (fun q => q) duo_update.
Proof. intros opts He Hd. apply duo_step; [exact He|exact Hd|]. intros a m th x ex m' e H. rewrite H. reflexivity. Qed.
Lemma duo_residuals : forall opts, do_elements opts = 1 -> do_degree opts = 1 -> duo_raises opts (fun q => q) duo_residual.
Proof.
  intros opts He Hd. apply duo_step; [exact He|exact Hd|]. intros a m th x ex m' e H. unfold duo_residual in H.
  destruct (duo_update a m th x ex) as [m1 [es|]]; [|discriminate]. cbn. congruence.
Qed.
Lemma duo_sets : sets duo_state duo_next snd duo_set.
Proof. intros q m m' H. unfold duo_set in H. assert (m' = (fst m, repeat q (length (snd m)))) by congruence. subst. split; reflexivity. Qed.
Lemma duo_puts : puts duo_state duo_next snd duo_put.
Proof. intros v m. split; reflexivity. Qed.
Lemma duo_known : forall a, In a (dn_nodes link_net) -> Forall (far_known link_net) (far_ends link_net a).
Proof.
  intros a Ha. destruct (duo_nodes a Ha) as [-> | ->]; (constructor; [|constructor]); cbn; (split; [left; reflexivity|]); (constructor; [intros []|constructor]).
Qed.
Lemma duo_covers : covers link_net link_blocks.
Proof.
  split; [repeat constructor; cbn; intuition congruence|]. intros a Ha. destruct (duo_nodes a Ha) as [-> | ->]; cbn; auto.
Qed.
Lemma duo_meets : forall a i b j, meets link_net a i b j -> a = 1 /\ i = 0 /\ b = 0 /\ j = 0.
Proof.
  intros a i b j [v [w [M1 [M2 [M3 M4]]]]].
  destruct a as [|[|a]]; [| |cbn in M1; destruct i; discriminate].
  - cbn in M1. destruct i as [|[|i]]; discriminate.
  - destruct i as [|[|i]]; [|cbn in M1; discriminate|cbn in M1; discriminate]. cbn in M2.
    assert (b = 0) by congruence. subst b. split; [reflexivity|]. split; [reflexivity|]. split; [reflexivity|].
    destruct j as [|[|j]]; [reflexivity|cbn in M3; discriminate|cbn in M3; discriminate].
Qed.
Lemma duo_wired : wired link_net duo_pairs.
Proof.
  split; [apply perm_swap|]. intros a i b j [E|[]]. assert (a = 1) by congruence. assert (i = 0) by congruence. assert (b = 0) by congruence.
  assert (j = 0) by congruence. subst. exists 20, 10. repeat split.
Qed.
Lemma duo_start_agreed : forall opts nu, duo_agreed opts (d_method duo_state (duo_start nu)).
Proof.
  intros opts nu. split.
  - intros a Ha. destruct (duo_nodes a Ha) as [-> | ->]; reflexivity.
  - intros a i b j _ _ M. destruct (duo_meets a i b j M) as [-> [-> [-> ->]]]. split; [reflexivity|]. intros; reflexivity.
Qed.

(** ** Optimality *)

Lemma square_pos : forall q : Q, (0 <= q * q)%Q.
Proof. intros q. nra. Qed.

Lemma duo_min : forall opts, do_elements opts = 1 -> do_degree opts = 1 ->
  minimises duo_state duo_next snd opts link_net Q (fun _ _ => True) duo_cost duo_value (fun _ _ => 1%Q) duo_point (duo_solve (fun _ => true)).
Proof.
  intros opts He Hd a m th g m' r Ha H. unfold duo_solve in H. destruct (Qle_bool 0 (nth 0 (snd m) 0%Q)) eqn:Hmu; [|discriminate].
  apply Qle_bool_iff in Hmu. set (v := duo_best a (snd (fst m)) (nth 0 (snd m) 0%Q) (duo_given th)) in H.
  assert (Er : r = mkNodeResult true v [v] (link_data v)) by congruence. split; [exact I|]. split.
  - intros last el k i own q Hr Hel Hk Ho Hq. assert (el = 0) by lia. assert (k = 0) by lia. subst el k.
    assert (Rr : duo_real a r) by (exists v; rewrite Er; split; reflexivity).
    unfold duo_value, duo_point. erewrite (duo_own last a r own q Hr Rr); [reflexivity| |exact Hq].
    destruct (duo_nodes a Ha) as [-> | ->]; cbn in Ho; destruct i as [|[|i]]; cbn in Ho; try discriminate; injection Ho as <-; [left|right]; split; reflexivity.
  - intros z _. unfold charge, integral. rewrite He, Hd. subst r. unfold duo_point. cbn [nr_x nth].
    assert (Ep : parameter th 0 0 = duo_given th) by (unfold parameter, duo_given; destruct (dget Nat.eqb 0 th) as [[|q l]|]; reflexivity).
    unfold duo_next. set (nu := snd (fst m)) in *. set (mu := nth 0 (snd m) 0%Q) in *. set (f := duo_given th) in *.
    assert (Ev : (v * (1 + mu) == (if a =? 0 then 2 + nu + mu * f else mu * f - nu))%Q).
    { unfold v, duo_best. destruct (a =? 0); rewrite Qred_correct; field; lra. }
    assert (X : (0 <= (1 + mu) * ((z - v) * (z - v)))%Q) by (apply Qmult_le_0_compat; [lra|apply square_pos]).
    assert (Em : nth 0 (snd m) 0%Q = mu) by reflexivity. clearbody v nu mu f.
    assert (Y : ((if a =? 0 then 2 + nu + mu * f else mu * f - nu) * (z - v) == v * (1 + mu) * (z - v))%Q) by (rewrite Ev; reflexivity).
    destruct (duo_nodes a Ha) as [-> | ->]; cbn -[parameter Qmult Qplus Qminus]; rewrite Ep; unfold duo_value, duo_cost;
      cbn [Nat.eqb] in *; rewrite Em; lra.
Qed.
Lemma duo_convex : convex Q (fun _ _ => True) duo_cost duo_value duo_mix.
Proof.
  intros a t x z T0 T1 _ _. split; [exact I|]. split; [|intros; reflexivity].
  assert (X : (0 <= t * (1 - t) * ((x - z) * (x - z)))%Q).
  { apply Qmult_le_0_compat; [apply Qmult_le_0_compat; lra|apply square_pos]. }
  unfold duo_cost, duo_mix. destruct (a =? 0); lra.
Qed.

(** ** Runs *)

Lemma duo_moved :
  duo_run false "cyclic" "constant" (fun _ => true) (fun _ => []) = Some (-3 # 4, -3 # 4)%Q /\
  duo_run true "cyclic" "constant" (fun _ => true) (fun _ => []) = Some (-1 # 2, -1 # 2)%Q /\
  duo_run true "sample" "primal-dual" (fun _ => true) (fun _ => [1; 0]) = Some (1 # 3, 1 # 3)%Q.
Proof. split; [|split]; vm_compute; reflexivity. Qed.

Lemma duo_case : forall distributed choice rule draw, choice = "cyclic"%string \/ choice = "sample"%string /\ (forall k, Permutation (draw k) [0; 1]) ->
  let opts := duo_options distributed choice rule 1 2 in
  all_blocks opts link_blocks draw /\ covers link_net link_blocks /\ duo_uses (duo_solve (fun _ => true)) /\
  duo_raises opts (fun q => q) duo_update /\ duo_raises opts (fun q => q) duo_residual /\
  sets duo_state duo_next snd duo_set /\ puts duo_state duo_next snd duo_put /\
  (forall a, In a (dn_nodes link_net) -> Forall (far_known link_net) (far_ends link_net a)) /\
  1 <= do_inner opts /\ duo_agreed opts (d_method duo_state (duo_start 0%Q)).
Proof.
  intros distributed choice rule draw Hc opts. split; [|split; [exact duo_covers|split; [exact duo_takes|]]].
  - destruct Hc as [->|[-> P]]; [left; reflexivity|right; split; [reflexivity|exact P]].
  - split; [apply duo_updates; reflexivity|]. split; [apply duo_residuals; reflexivity|]. split; [exact duo_sets|]. split; [exact duo_puts|].
    split; [exact duo_known|]. split; [cbn; lia|apply duo_start_agreed].
Qed.

(** The two ends differ. *)
Lemma duo_differ : forall opts (m : addr -> duo_state), do_elements opts = 1 -> do_degree opts = 1 ->
  ~ (duo_next (m 1%nat) 0%nat 0%nat 0%nat == duo_next (m 0%nat) 0%nat 0%nat 0%nat)%Q -> ~ duo_agreed opts m.
Proof.
  intros opts m He Hd H [_ A]. apply H. destruct (A 1 0 0 0) as [_ N]; [right; left; reflexivity|left; reflexivity| |].
  - exists 20, 10. repeat split.
  - apply N; lia.
Qed.

Lemma choices_differ : exists S used next solve update primal_dual mu_of set_mu put_mu opts net blocks draw real (s s' : dstate S) d,
  do_choice opts = "choices"%string /\ (forall k i, In i (draw k) -> i < length blocks) /\ (forall k, draw k <> []) /\ covers net blocks /\
  uses_next S used next mu_of net real solve /\ raises S used next mu_of opts net real (fun q => q) update /\
  raises S used next mu_of opts net real (fun q => q) primal_dual /\ sets S next mu_of set_mu /\ puts S next mu_of put_mu /\
  (forall a, In a (dn_nodes net) -> Forall (far_known net) (far_ends net a)) /\ 1 <= do_inner opts /\
  agreed S next mu_of opts net (d_method S s) /\
  dal_solve S solve update primal_dual mu_of set_mu put_mu opts net blocks draw s = (s', Ok d) /\
  ~ agreed S next mu_of opts net (d_method S s').
Proof.
  exists duo_state, duo_used, duo_next, (duo_solve (fun _ => true)), duo_update, duo_residual, snd, duo_set, duo_put.
  exists (duo_options false "choices" "constant" 1 2), link_net, link_blocks, (fun k => if k =? 0 then [0; 1] else [0; 0]), duo_real, (duo_start 0%Q).
  eexists; eexists.
  split; [reflexivity|]. split; [intros k i; destruct (k =? 0); cbn; lia|]. split; [intros k; destruct (k =? 0); discriminate|].
  split; [exact duo_covers|]. split; [exact duo_takes|]. split; [apply duo_updates; reflexivity|]. split; [apply duo_residuals; reflexivity|].
  split; [exact duo_sets|]. split; [exact duo_puts|]. split; [exact duo_known|]. split; [cbn; lia|]. split; [apply duo_start_agreed|].
  split; [vm_compute; reflexivity|]. apply duo_differ; [reflexivity|reflexivity|]. vm_compute. discriminate.
Qed.

Lemma failure_differs : exists S used next solve update primal_dual mu_of set_mu put_mu opts net blocks draw real (s s' : dstate S) d,
  all_blocks opts blocks draw /\ covers net blocks /\
  (forall a m th g m' r, solve a m th g = (m', Ok r) ->
     nr_success r = (a =? 0) /\ real a r /\ mu_of m' = mu_of m /\
     forall el k i, (used m' el k i == next m el k i)%Q /\ (next m' el k i == next m el k i)%Q) /\
  raises S used next mu_of opts net real (fun q => q) update /\
  raises S used next mu_of opts net real (fun q => q) primal_dual /\ sets S next mu_of set_mu /\ puts S next mu_of put_mu /\
  (forall a, In a (dn_nodes net) -> Forall (far_known net) (far_ends net a)) /\ 1 <= do_inner opts /\
  agreed S next mu_of opts net (d_method S s) /\
  dal_solve S solve update primal_dual mu_of set_mu put_mu opts net blocks draw s = (s', Ok d) /\
  ~ agreed S next mu_of opts net (d_method S s').
Proof.
  exists duo_state, duo_used, duo_next, (duo_solve (fun a => a =? 0)), duo_update, duo_residual, snd, duo_set, duo_put.
  exists (duo_options false "cyclic" "constant" 1 2), link_net, link_blocks, (fun _ => []), duo_real, (duo_start 0%Q).
  eexists; eexists.
  split; [left; reflexivity|]. split; [exact duo_covers|]. split.
  { intros a m th g m' r H. unfold duo_solve in H. destruct (Qle_bool 0 (nth 0 (snd m) 0%Q)); [|discriminate].
    set (v := duo_best a (snd (fst m)) (nth 0 (snd m) 0%Q) (duo_given th)) in H.
    assert (m' = ((snd (fst m), snd (fst m)), snd m)) by congruence.
    assert (r = mkNodeResult (a =? 0) v [v] (link_data v)) by congruence. subst m' r.
    split; [reflexivity|]. split; [exists v; split; reflexivity|]. split; [reflexivity|]. intros el k i. split; reflexivity. }
  split; [apply duo_updates; reflexivity|]. split; [apply duo_residuals; reflexivity|].
  split; [exact duo_sets|]. split; [exact duo_puts|]. split; [exact duo_known|]. split; [cbn; lia|]. split; [apply duo_start_agreed|].
  split; [vm_compute; reflexivity|]. apply duo_differ; [reflexivity|reflexivity|]. vm_compute. discriminate.
Qed.

(** ** Settled sweeps *)

Lemma far_value_one : forall net lst el k f q q', far_value net lst el k f q -> far_value net lst el k f q' -> q = q'.
Proof.
  intros net lst el k [b v|b v] q q' [i [[Hi Ni] ->]] [j [[Hj _] ->]];
    assert (E : i = j) by (apply (proj1 (NoDup_nth_error _) Ni); [apply nth_error_Some; congruence|congruence]); rewrite E; reflexivity.
Qed.
Lemma duo_unmoved : forall opts lst, unmoved opts link_net lst lst.
Proof. intros opts lst a e el k v v' _ _ _ _ H H'. rewrite (far_value_one _ _ _ _ _ _ _ H H'). reflexivity. Qed.
Lemma duo_full : forall opts v w, do_elements opts = 1 -> do_degree opts = 1 ->
  full_results opts [(0, duo_answer v); (1, duo_answer w)].
Proof.
  intros opts v w He Hd b r el Hr Hel. assert (el = 0) by lia. subst el. rewrite Hd. unfold result_of in Hr.
  destruct b as [|[|b]]; cbn in Hr; [| |discriminate]; assert (E : Some r = Some r) by reflexivity; injection Hr as <-; split; reflexivity.
Qed.
Lemma duo_loop_agreed : forall opts v w nu, duo_agreed opts (d_method duo_state (l_state duo_state (duo_loop v w nu nu))).
Proof.
  intros opts v w nu. split.
  - intros a Ha. destruct (duo_nodes a Ha) as [-> | ->]; reflexivity.
  - intros a i b j _ _ M. destruct (duo_meets a i b j M) as [-> [-> [-> ->]]]. split; [reflexivity|]. intros; reflexivity.
Qed.
Notation duo_joined opts := (joined opts link_net Q duo_value).
Lemma duo_joined_at : forall opts v, duo_joined opts (duo_at v v).
Proof. intros opts v a i b j _ _ M el k _ _. destruct (duo_meets a i b j M) as [-> [-> [-> ->]]]. reflexivity. Qed.
Lemma duo_results_at : forall v w, results_are link_net Q duo_point [(0, duo_answer v); (1, duo_answer w)] (duo_at v w).
Proof. intros v w a Ha. destruct (duo_nodes a Ha) as [-> | ->]; eexists; split; reflexivity. Qed.

(** Settled with a gap: the bound is 8/9, the least cost 1. *)
Lemma duo_gap_case : let opts := duo_options false "cyclic" "constant" 1 2 in let l := duo_loop (4 # 3)%Q (2 # 3)%Q 0%Q 0%Q in
  exists l' o, duo_sweep opts l = (l', Ok o) /\ duo_agreed opts (d_method duo_state (l_state duo_state l)) /\
    full_results opts (d_last duo_state (l_state duo_state l)) /\ full_results opts (l_results duo_state l') /\
    unmoved opts link_net (d_last duo_state (l_state duo_state l)) (l_results duo_state l') /\
    results_are link_net Q duo_point (l_results duo_state l') (duo_at (4 # 3) (2 # 3)) /\
    (total_cost link_net Q duo_cost (duo_at (4 # 3) (2 # 3)) +
     gap_cost duo_state duo_next snd opts Q duo_value (fun _ _ => 1) duo_pairs (d_method duo_state (l_state duo_state l)) (duo_at (4 # 3) (2 # 3)) == 8 # 9)%Q /\
    duo_joined opts (duo_at 1%Q 1%Q) /\ (total_cost link_net Q duo_cost (duo_at 1%Q 1%Q) == 1)%Q.
Proof.
  intros opts l. pose (r := duo_sweep opts l). exists (fst r), (total (l_results duo_state (fst r))).
  assert (E : l_results duo_state (fst r) = [(0, duo_answer (4 # 3)); (1, duo_answer (2 # 3))]) by (vm_compute; reflexivity).
  split; [vm_compute; reflexivity|]. split; [apply duo_loop_agreed|]. split; [apply duo_full; reflexivity|]. rewrite E.
  split; [apply duo_full; reflexivity|]. split; [apply duo_unmoved|]. split; [apply duo_results_at|].
  split; [vm_compute; reflexivity|]. split; [apply duo_joined_at|]. vm_compute. reflexivity.
Qed.
Lemma duo_joined_case : let opts := duo_options false "cyclic" "constant" 1 2 in let l := duo_loop 1%Q 1%Q (-1)%Q (-1)%Q in
  exists l' o, duo_sweep opts l = (l', Ok o) /\ duo_agreed opts (d_method duo_state (l_state duo_state l)) /\
    full_results opts (d_last duo_state (l_state duo_state l)) /\ full_results opts (l_results duo_state l') /\
    unmoved opts link_net (d_last duo_state (l_state duo_state l)) (l_results duo_state l') /\
    results_are link_net Q duo_point (l_results duo_state l') (duo_at 1%Q 1%Q) /\ duo_joined opts (duo_at 1%Q 1%Q).
Proof.
  intros opts l. pose (r := duo_sweep opts l). exists (fst r), (total (l_results duo_state (fst r))).
  assert (E : l_results duo_state (fst r) = [(0, duo_answer 1%Q); (1, duo_answer 1%Q)]) by (vm_compute; reflexivity).
  split; [vm_compute; reflexivity|]. split; [apply duo_loop_agreed|]. split; [apply duo_full; reflexivity|]. rewrite E.
  split; [apply duo_full; reflexivity|]. split; [apply duo_unmoved|]. split; [apply duo_results_at|]. apply duo_joined_at.
Qed.
(** The problems of both nodes. *)
Lemma duo_problem : let opts := duo_options false "cyclic" "constant" 1 2 in
  all_blocks opts link_blocks (fun _ => []) /\ covers link_net link_blocks /\ wired link_net duo_pairs /\
  (forall a, In a (dn_nodes link_net) -> Forall (far_known link_net) (far_ends link_net a)) /\
  duo_uses (duo_solve (fun _ => true)) /\ convex Q (fun _ _ => True) duo_cost duo_value duo_mix /\
  minimises duo_state duo_next snd opts link_net Q (fun _ _ => True) duo_cost duo_value (fun _ _ => 1%Q) duo_point (duo_solve (fun _ => true)).
Proof.
  intros opts. split; [left; reflexivity|]. split; [exact duo_covers|]. split; [exact duo_wired|]. split; [exact duo_known|].
  split; [exact duo_takes|]. split; [exact duo_convex|]. apply duo_min; reflexivity.
Qed.

Lemma disagreed : exists S used next solve mu_of opts net blocks draw real P feasible cost value mix omega point pairs (l l' : loop S) o x z,
  all_blocks opts blocks draw /\ covers net blocks /\ wired net pairs /\
  (forall a, In a (dn_nodes net) -> Forall (far_known net) (far_ends net a)) /\
  uses_next S used next mu_of net real solve /\ convex P feasible cost value mix /\
  minimises S next mu_of opts net P feasible cost value omega point solve /\
  full_results opts (d_last S (l_state S l)) /\ full_results opts (l_results S l') /\
  sweep S solve opts net blocks draw l = (l', Ok o) /\ unmoved opts net (d_last S (l_state S l)) (l_results S l') /\
  results_are net P point (l_results S l') x /\ joined opts net P value x /\
  (forall a, In a (dn_nodes net) -> feasible a (z a)) /\ joined opts net P value z /\
  (total_cost net P cost z < total_cost net P cost x)%Q.
Proof.
  exists duo_state, duo_used, duo_next, (duo_solve (fun _ => true)), snd, (duo_options false "cyclic" "constant" 1 2), link_net, link_blocks, (fun _ => []), duo_real.
  exists Q, (fun _ _ => True), duo_cost, duo_value, duo_mix, (fun _ _ => 1%Q), duo_point, duo_pairs.
  pose (l := duo_loop 0%Q 0%Q (-2)%Q 0%Q). pose (r := duo_sweep (duo_options false "cyclic" "constant" 1 2) l).
  exists l, (fst r), (total (l_results duo_state (fst r))), (duo_at 0%Q 0%Q), (duo_at 1%Q 1%Q).
  destruct duo_problem as [H1 [H2 [H3 [H4 [H5 [H6 H7]]]]]].
  assert (E : l_results duo_state (fst r) = [(0, duo_answer 0%Q); (1, duo_answer 0%Q)]) by (vm_compute; reflexivity). rewrite E.
  split; [exact H1|]. split; [exact H2|]. split; [exact H3|]. split; [exact H4|]. split; [exact H5|]. split; [exact H6|]. split; [exact H7|].
  split; [apply duo_full; reflexivity|]. split; [apply duo_full; reflexivity|]. split; [vm_compute; reflexivity|].
  split; [apply duo_unmoved|]. split; [apply duo_results_at|]. split; [apply duo_joined_at|].
  split; [intros; exact I|]. split; [apply duo_joined_at|]. vm_compute. reflexivity.
Qed.

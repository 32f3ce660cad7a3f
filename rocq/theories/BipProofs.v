(** Proofs about the distributed method with averaged connections. *)
From Coq Require Import String Lqa Lia.
From Verif Require Import Base UtilModel ExprModel LagModel LagSpec SysModel NlpModel NlpSpec OcpModel OcpSpec.
From Verif Require Import SysSpec BaseProofs UtilProofs ExprProofs LagProofs SysProofs OcpProofs ResModel NetModel DalModel DalSpec DalProofs DalLoopProofs AugRelaxProofs.
From Verif Require Import ExoModel ExoSpec ExoProofs BipModel BipSpec.
Local Open Scope list_scope.

(** ** Approximations of vectors *)

Lemma vector_approx_spec : forall points degree tau n first, good_points points degree ->
  let (pol, par) := vector_approx points degree tau n first in
  length pol = n /\ par = by_point degree first n /\
  forall i, i < n -> is_worth points degree tau (nth i pol (EConst 0%Q)) (fun env k => env (first + i * degree + k)%nat).
Proof.
  intros points degree tau n first [H1 [H2 H3]]. unfold vector_approx.
  destruct (create_polynomial_approximation points tau n degree first false) as [pol par] eqn:E.
  assert (Hpar : par = by_point degree first n).
  { unfold create_polynomial_approximation in E. simpl andb in E. cbv iota zeta in E. injection E as _ <-. reflexivity. }
  assert (Hlen : length pol = n).
  { destruct (Nat.eq_dec degree 1) as [->|N].
    - pose proof (w_C08_degree_one_constant (fun _ _ => 0%Q) (fun _ => 0%Q) points tau n first false 0) as L. rewrite E in L. apply L.
    - unfold create_polynomial_approximation in E. destruct (Nat.eqb_spec degree 1) as [|_]; [contradiction|].
      simpl andb in E. cbv iota zeta in E. injection E as <- _. apply combination_length. lia. }
  split; [exact Hlen|]. split; [exact Hpar|]. intros i Hi F env k Hk Ht.
  assert (G : (eval F env (nth i pol (EConst 0%Q)) == env (nth (k * n + i) par 0%nat))%Q).
  { destruct (Nat.eq_dec degree 1) as [->|N].
    - pose proof (w_C08_degree_one_constant F env points tau n first false i) as L. rewrite E in L.
      destruct L as [_ [_ L]]. replace (k * n + i)%nat with i by nia. apply L. exact Hi.
    - pose proof (w_C08_parameter_layout F env points tau n degree first false i k) as L. cbv zeta in L. rewrite E in L.
      apply L; unfold interpolation_points; try assumption; lia. }
  rewrite G, Hpar. unfold by_point.
  rewrite (nth_flat_map_uniform _ n _ k i 0%nat 0%nat); [|intros; rewrite map_length, seq_length; reflexivity|rewrite seq_length; exact Hk|exact Hi].
  rewrite (nth_map_in _ _ i 0%nat 0%nat) by (rewrite seq_length; exact Hi). rewrite !seq_nth by assumption. reflexivity.
Qed.

Lemma mean_vec_length : forall a b, length a = length b -> length (mean_vec a b) = length a.
Proof. intros a b H. unfold mean_vec. rewrite map_length, combine_length. lia. Qed.
Lemma mean_vec_nth : forall a b i, i < length a -> length a = length b ->
  nth i (mean_vec a b) (EConst 0%Q) = EBin ODiv (EBin OAdd (nth i a (EConst 0%Q)) (nth i b (EConst 0%Q))) (EConst 2%Q).
Proof.
  induction a as [|x a IH]; intros [|y b] i Hi Hl; simpl in *; try lia. destruct i as [|i]; [reflexivity|].
  apply IH; lia.
Qed.
Lemma by_point_length : forall degree first n, length (by_point degree first n) = (n * degree)%nat.
Proof.
  intros degree first n. unfold by_point. rewrite (length_flat_map_uniform _ n); [rewrite seq_length; lia|].
  intros k _. rewrite map_length, seq_length. reflexivity.
Qed.

(** ** Inputs *)

Definition bip_inputs_bound (points : nat -> list Q) (degree : nat) (ins : list (list sym)) (s s' : exo) : Prop :=
  let o := e_problem s in let o' := e_problem s' in
  let m := o_model o in let m' := o_model o' in
  (exists alg, averages points degree (m_tau m) input_minus (e_next s) ins alg /\ m_alg m' = m_alg m ++ concat alg) /\
  m_theta m' = m_theta m ++ two_each degree (e_next s) (map (@length sym) ins) /\
  e_next s' = (e_next s + 2 * (joined ins * degree))%nat /\
  m_y m' = m_y m ++ concat ins /\ m_u m' = filter (not_in (concat ins)) (m_u m) /\
  rl_alg (e_relax s') = rl_alg (e_relax s) ++ seq (length (m_alg m)) (joined ins) /\
  rl_eq (e_relax s') = rl_eq (e_relax s) /\
  (NoDup (m_y m ++ concat ins) -> rl_y (e_relax s') = rl_y (e_relax s) ++ seq (length (m_y m)) (joined ins)) /\
  o_g_eq o' = o_g_eq o /\ o_when_eq o' = o_when_eq o /\ kept_problem o o'.

Lemma averages_length : forall points degree tau diff blocks first eqs,
  averages points degree tau diff first blocks eqs -> length (concat eqs) = joined blocks.
Proof.
  intros points degree tau diff blocks. induction blocks as [|b blocks IH]; intros first [|e eqs] H; cbn in H; try contradiction; [reflexivity|].
  destruct H as [H1 [_ H2]]. unfold joined in *. cbn [concat]. rewrite !app_length, (IH _ _ H2), H1. reflexivity.
Qed.

Lemma bip_input_bound : forall points degree y u s s', good_points points degree ->
  bip_input points degree (y, u) s = (s', Ok tt) -> length y = length u /\ bip_inputs_bound points degree [u] s s'.
Proof.
  intros points degree y u s s' G H. unfold bip_input in H.
  pose proof (vector_approx_spec points degree (m_tau (o_model (e_problem s))) (length y) (e_next s) G) as A.
  destruct (vector_approx points degree (m_tau (o_model (e_problem s))) (length y) (e_next s)) as [ya yp].
  destruct A as [A1 [A2 A3]].
  pose proof (vector_approx_spec points degree (m_tau (o_model (e_problem s))) (length u) (e_next s + length y * degree) G) as B.
  destruct (vector_approx points degree (m_tau (o_model (e_problem s))) (length u) (e_next s + length y * degree)) as [ua up].
  destruct B as [B1 [B2 B3]].
  apply cbind_ok in H. destruct H as [s1 [[] [H1 H]]]. unfold on_next, cmodify in H1.
  match type of H1 with (?x, _) = _ => assert (E1 : s1 = x) by congruence end. subst s1. clear H1.
  apply cbind_ok in H. destruct H as [s2 [[] [H2 H]]]. unfold on_relax, cmodify in H2. cbn [e_problem e_next e_relax] in H2.
  match type of H2 with (?x, _) = _ => assert (E2 : s2 = x) by congruence end. subst s2. clear H2.
  apply cbind_ok in H. destruct H as [s3 [[] [H3 H]]]. unfold cguard in H3.
  destruct (Nat.eqb_spec (length y) (length u)) as [L|]; [|discriminate]. cbn [negb] in H3.
  match type of H3 with (?x, _) = _ => assert (E3 : s3 = x) by congruence end. subst s3. clear H3.
  apply cbind_ok in H. destruct H as [s4 [[] [H4 H]]]. unfold on_problem in H4. cbn [e_problem e_next e_relax] in H4.
  destruct (ocp_connect u (mean_vec ya ua) false (e_problem s)) as [o1 r1] eqn:C.
  assert (Er : r1 = Ok tt) by congruence. subst r1.
  match type of H4 with (?x, _) = _ => assert (E4 : s4 = x) by congruence end. subst s4. clear H4.
  apply cbind_ok in H. destruct H as [s5 [[] [H5 H]]]. unfold on_problem, on_model, include_theta, cmodify in H5.
  cbn [e_problem e_next e_relax] in H5.
  match type of H5 with (?x, _) = _ => assert (E5 : s5 = x) by congruence end. subst s5. clear H5.
  apply cbind_ok in H. destruct H as [s6 [[] [H6 H]]]. unfold on_problem, on_model, include_theta, cmodify in H6.
  cbn [e_problem e_next e_relax] in H6.
  match type of H6 with (?x, _) = _ => assert (E6 : s6 = x) by congruence end. subst s6. clear H6.
  unfold on_relax, cmodify in H. cbn [e_problem e_next e_relax rl_alg rl_y rl_eq] in H.
  match type of H with (?x, _) = _ => assert (E7 : s' = x) by congruence end. subst s'. clear H.
  split; [exact L|].
  apply ocp_connect_result in C. destruct C as [C U]. apply connect_result in C.
  destruct C as [Lc [Calg [Cy [Cu [Cx [Code [Cth [Ctau [Cp Ct]]]]]]]]].
  unfold untouched, problem_expressions in U. destruct U as [U0 U]. injection U0 as UL UV US Uh Uhi Uhf Ugeq Ugin.
  decompose [and] U. clear U.
  assert (Lm : length (mean_vec ya ua) = length u) by congruence.
  unfold bip_inputs_bound, joined. cbn [concat map two_each]. rewrite !app_nil_r.
  cbn -[seq find_syms averages kept_problem by_point concat Nat.mul]. repeat match goal with |- _ /\ _ => split end; try congruence.
  - exists [sub_vec (map EVar u) (mean_vec ya ua)]. split; [|cbn [concat]; rewrite app_nil_r; exact Calg]. cbn [averages].
    split; [rewrite sub_vec_length; rewrite map_length; congruence|]. split; [|exact I].
    intros i Hi F env k Hk Ht. rewrite sub_vec_nth; [|rewrite map_length; exact Hi|rewrite map_length; congruence].
    rewrite nth_vars by exact Hi. rewrite mean_vec_nth by congruence. cbn [eval binop_eval].
    rewrite (A3 i ltac:(congruence) F env k Hk Ht), (B3 i ltac:(congruence) F env k Hk Ht). unfold input_minus.
    replace (e_next s + length y * degree + i * degree + k)%nat with (e_next s + (length u + i) * degree + k)%nat by nia. reflexivity.
  - rewrite Cth, A2, B2, L, <- app_assoc. reflexivity.
  - rewrite L. lia.
  - intros N. rewrite Cy. rewrite find_appended by exact N. reflexivity.
  - unfold kept_problem. cbn. repeat split; assumption.
Qed.

Lemma bip_inputs_nil : forall points degree s, bip_inputs_bound points degree [] s s.
Proof.
  intros points degree s. unfold bip_inputs_bound, joined. cbn [length concat map two_each seq Nat.mul]. rewrite !app_nil_r, !Nat.add_0_r.
  repeat match goal with |- _ /\ _ => split end; try reflexivity; try apply kept_problem_refl.
  - exists []. split; [exact I|cbn; rewrite app_nil_r; reflexivity].
  - symmetry. assert (X : forall l, filter (not_in []) l = l); [|apply X].
    induction l as [|v l IH]; [reflexivity|]. cbn. rewrite IH. reflexivity.
Qed.

Lemma averages_cons : forall points degree tau diff first b blocks e eqs,
  averages points degree tau diff first [b] [e] -> averages points degree tau diff (first + 2 * (length b * degree)) blocks eqs ->
  averages points degree tau diff first (b :: blocks) (e :: eqs).
Proof. intros points degree tau diff first b blocks e eqs [H1 [H2 _]] H. cbn [averages]. auto. Qed.

Lemma bip_inputs_cons : forall points degree u ins s1 s2 s3,
  bip_inputs_bound points degree [u] s1 s2 -> bip_inputs_bound points degree ins s2 s3 -> bip_inputs_bound points degree (u :: ins) s1 s3.
Proof.
  intros points degree u ins s1 s2 s3 H K. unfold bip_inputs_bound in *.
  destruct H as [[alg1 [W1 G1]] [T1 [N1 [Y1 [U1 [A1 [E1 [R1 [Q1 [V1 K1]]]]]]]]]].
  destruct K as [[alg2 [W2 G2]] [T2 [N2 [Y2 [U2 [A2 [E2 [R2 [Q2 [V2 K2]]]]]]]]]].
  assert (Etau : m_tau (o_model (e_problem s2)) = m_tau (o_model (e_problem s1))) by apply K1.
  pose proof (averages_length _ _ _ _ _ _ _ W1) as LA.
  destruct alg1 as [|e1 [|]]; cbn [averages] in W1; try tauto; try (exfalso; clear - W1; tauto).
  unfold joined in *. cbn [concat map two_each length] in *. rewrite ?app_nil_r in *.
  repeat match goal with |- _ /\ _ => split end; try congruence.
  - exists (e1 :: alg2). split.
    + apply averages_cons; [exact W1|]. rewrite <- Etau, <- N1. exact W2.
    + rewrite G2, G1, <- app_assoc. reflexivity.
  - rewrite T2, T1, N1, <- !app_assoc. reflexivity.
  - rewrite N2, N1, app_length. lia.
  - rewrite Y2, Y1, app_assoc. reflexivity.
  - rewrite U2, U1, filter_not_in_app. reflexivity.
  - rewrite A2, A1, G1, !app_length, LA, seq_app, app_assoc. reflexivity.
  - intros N. rewrite R2, R1, Y1, !app_length, seq_app, app_assoc; [reflexivity| |].
    + rewrite app_assoc in N. apply NoDup_app_l in N. exact N.
    + rewrite Y1, <- app_assoc. exact N.
  - eapply kept_problem_trans; eassumption.
Qed.

Lemma bip_inputs_all : forall points degree preds s s', good_points points degree ->
  run_all (bip_input points degree) preds s = (s', Ok tt) ->
  Forall (fun c => length (fst c) = length (snd c)) preds /\ bip_inputs_bound points degree (map snd preds) s s'.
Proof.
  intros points degree preds. induction preds as [|[y u] preds IH]; intros s s' G H.
  - cbn in H. unfold cret in H. assert (s' = s) by congruence. subst. split; [constructor|apply bip_inputs_nil].
  - cbn [run_all] in H. apply cbind_ok in H. destruct H as [s1 [[] [H1 H]]].
    apply bip_input_bound in H1; [|exact G]. destruct H1 as [L H1]. destruct (IH _ _ G H) as [F K].
    split; [constructor; assumption|]. cbn [map snd]. eapply bip_inputs_cons; eassumption.
Qed.

(** ** Outputs *)

Definition bip_outputs_bound (points : nat -> list Q) (degree : nat) (outs : list (list sym)) (s s' : exo) : Prop :=
  let o := e_problem s in let m := o_model o in
  exists eqs,
    averages points degree (m_tau m) mean_minus (e_next s) outs eqs /\
    e_problem s' = set_o_model (set_theta (m_theta m ++ two_each degree (e_next s) (map (@length sym) outs)) m)
                     (set_o_when_eq (o_when_eq o ++ repeat "default"%string (joined outs)) (set_o_g_eq (o_g_eq o ++ concat eqs) o)) /\
    e_next s' = (e_next s + 2 * (joined outs * degree))%nat /\
    rl_alg (e_relax s') = rl_alg (e_relax s) /\ rl_y (e_relax s') = rl_y (e_relax s) /\
    rl_eq (e_relax s') = rl_eq (e_relax s) ++ seq (length (o_g_eq o)) (joined outs).

Lemma bip_output_bound : forall points degree y u s s', good_points points degree ->
  bip_output points degree (y, u) s = (s', Ok tt) -> length y = length u /\ bip_outputs_bound points degree [y] s s'.
Proof.
  intros points degree y u s s' G H. unfold bip_output in H.
  pose proof (vector_approx_spec points degree (m_tau (o_model (e_problem s))) (length u) (e_next s) G) as A.
  destruct (vector_approx points degree (m_tau (o_model (e_problem s))) (length u) (e_next s)) as [ua up].
  destruct A as [A1 [A2 A3]].
  pose proof (vector_approx_spec points degree (m_tau (o_model (e_problem s))) (length y) (e_next s + length u * degree) G) as B.
  destruct (vector_approx points degree (m_tau (o_model (e_problem s))) (length y) (e_next s + length u * degree)) as [ya yp].
  destruct B as [B1 [B2 B3]].
  apply cbind_ok in H. destruct H as [s1 [[] [H1 H]]]. unfold on_next, cmodify in H1.
  match type of H1 with (?x, _) = _ => assert (E1 : s1 = x) by congruence end. subst s1. clear H1.
  apply cbind_ok in H. destruct H as [s2 [[] [H2 H]]]. unfold on_relax, cmodify in H2. cbn [e_problem e_next e_relax] in H2.
  match type of H2 with (?x, _) = _ => assert (E2 : s2 = x) by congruence end. subst s2. clear H2.
  apply cbind_ok in H. destruct H as [s3 [[] [H3 H]]]. unfold cguard in H3.
  destruct (Nat.eqb_spec (length u) (length y)) as [L|]; [|discriminate]. cbn [negb] in H3.
  match type of H3 with (?x, _) = _ => assert (E3 : s3 = x) by congruence end. subst s3. clear H3.
  apply cbind_ok in H. destruct H as [s4 [[] [H4 H]]]. unfold on_problem, include_time_equality, cbind, cmodify in H4.
  cbn [e_problem e_next e_relax] in H4.
  match type of H4 with (?x, _) = _ => assert (E4 : s4 = x) by congruence end. subst s4. clear H4.
  apply cbind_ok in H. destruct H as [s5 [[] [H5 H]]]. unfold on_problem, on_model, include_theta, cmodify in H5.
  cbn [e_problem e_next e_relax] in H5.
  match type of H5 with (?x, _) = _ => assert (E5 : s5 = x) by congruence end. subst s5. clear H5.
  unfold on_problem, on_model, include_theta, cmodify in H. cbn [e_problem e_next e_relax] in H.
  match type of H with (?x, _) = _ => assert (E6 : s' = x) by congruence end. subst s'. clear H.
  split; [congruence|].
  assert (Lm : length (mean_vec ua ya) = length y) by (rewrite mean_vec_length; congruence).
  assert (Ls : length (sub_vec (mean_vec ua ya) (map EVar y)) = length y).
  { rewrite sub_vec_length; [congruence|]. rewrite map_length. congruence. }
  exists [sub_vec (mean_vec ua ya) (map EVar y)]. cbn [e_problem e_next e_relax rl_alg rl_y rl_eq].
  unfold joined. cbn [concat map two_each]. rewrite !app_nil_r.
  split.
  { cbn [averages]. split; [exact Ls|]. split; [|exact I].
    intros i Hi F env k Hk Ht. rewrite sub_vec_nth; [|congruence|rewrite map_length; congruence].
    rewrite nth_vars by exact Hi. rewrite mean_vec_nth by congruence. cbn [eval binop_eval].
    rewrite (A3 i ltac:(congruence) F env k Hk Ht), (B3 i ltac:(congruence) F env k Hk Ht). unfold mean_minus.
    replace (e_next s + length u * degree + i * degree + k)%nat with (e_next s + (length y + i) * degree + k)%nat by nia. reflexivity. }
  split; [|rewrite L; repeat split; lia].
  apply ocp_ext; try reflexivity.
  - cbn -[by_point]. rewrite A2, B2, L, <- app_assoc. reflexivity.
  - cbn. rewrite Ls. reflexivity.
Qed.

Lemma bip_outputs_nil : forall points degree s, bip_outputs_bound points degree [] s s.
Proof.
  intros points degree s. exists []. unfold joined. cbn [length concat map two_each seq Nat.mul repeat]. rewrite !app_nil_r, !Nat.add_0_r.
  repeat match goal with |- _ /\ _ => split end; try reflexivity.
  apply ocp_ext; try reflexivity. cbn. destruct (o_model (e_problem s)); reflexivity.
Qed.

Lemma bip_outputs_cons : forall points degree y outs s1 s2 s3,
  bip_outputs_bound points degree [y] s1 s2 -> bip_outputs_bound points degree outs s2 s3 -> bip_outputs_bound points degree (y :: outs) s1 s3.
Proof.
  intros points degree y outs s1 s2 s3 [e1 [W1 [P1 [N1 [A1 [Y1 R1]]]]]] [e2 [W2 [P2 [N2 [A2 [Y2 R2]]]]]].
  pose proof (averages_length _ _ _ _ _ _ _ W1) as LA.
  destruct e1 as [|e [|]]; cbn [averages] in W1; try (exfalso; clear - W1; tauto).
  rewrite P1 in P2, R2, W2. cbn [o_model o_g_eq set_o_model set_o_when_eq set_o_g_eq m_tau set_theta] in W2, R2.
  unfold joined in *. cbn [concat map two_each length] in *. rewrite ?app_nil_r in *.
  exists (e :: e2). unfold joined. cbn [concat map two_each]. repeat match goal with |- _ /\ _ => split end; try congruence.
  - apply averages_cons; [exact W1|]. rewrite <- N1. exact W2.
  - rewrite P2. apply ocp_ext; try reflexivity.
    + cbn -[by_point two_each]. rewrite N1, <- !app_assoc. reflexivity.
    + cbn. rewrite <- app_assoc. reflexivity.
    + cbn. rewrite app_length, repeat_app, app_assoc. reflexivity.
  - rewrite N2, N1, app_length. lia.
  - rewrite R2, R1, !app_length, LA, seq_app, app_assoc. reflexivity.
Qed.

Lemma bip_outputs_all : forall points degree succs s s', good_points points degree ->
  run_all (bip_output points degree) succs s = (s', Ok tt) ->
  Forall (fun c => length (fst c) = length (snd c)) succs /\ bip_outputs_bound points degree (map fst succs) s s'.
Proof.
  intros points degree succs. induction succs as [|[y u] succs IH]; intros s s' G H.
  - cbn in H. unfold cret in H. assert (s' = s) by congruence. subst. split; [constructor|apply bip_outputs_nil].
  - cbn [run_all] in H. apply cbind_ok in H. destruct H as [s1 [[] [H1 H]]].
    apply bip_output_bound in H1; [|exact G]. destruct H1 as [L H1]. destruct (IH _ _ G H) as [F K].
    split; [constructor; assumption|]. cbn [map fst]. eapply bip_outputs_cons; eassumption.
Qed.

Lemma bip_prepared : forall points degree preds succs s s', good_points points degree ->
  bip_exogenous points degree preds succs s = (s', Ok tt) ->
  Forall (fun c => length (fst c) = length (snd c)) preds /\ Forall (fun c => length (fst c) = length (snd c)) succs /\
  averaging points degree (map snd preds) (map fst succs) s s' /\ kept_problem (e_problem s) (e_problem s').
Proof.
  intros points degree preds succs s s' G H. unfold bip_exogenous in H.
  apply cbind_ok in H. destruct H as [s1 [[] [H1 H2]]].
  apply bip_inputs_all in H1; [|exact G]. destruct H1 as [F1 H1]. apply bip_outputs_all in H2; [|exact G]. destruct H2 as [F2 H2].
  split; [exact F1|]. split; [exact F2|]. clear F1 F2.
  set (ins := map snd preds) in *. set (outs := map fst succs) in *. clearbody ins outs.
  destruct H1 as [[alg1 [W1 G1]] [T1 [N1 [Y1 [U1 [A1 [E1 [R1 [Q1 [V1 K1]]]]]]]]]].
  destruct H2 as [eqs [W2 [P2 [N2 [A2 [Y2 R2]]]]]].
  assert (Etau : m_tau (o_model (e_problem s1)) = m_tau (o_model (e_problem s))) by apply K1.
  split.
  - unfold averaging. cbv zeta. rewrite P2. cbn [o_model o_g_eq o_when_eq set_o_model set_o_when_eq set_o_g_eq m_tau set_theta m_alg m_theta m_y m_u].
    repeat match goal with |- _ /\ _ => split end.
    + exists alg1, eqs. rewrite <- N1, <- Etau. split; [rewrite Etau; exact W1|]. split; [exact W2|]. split; [exact G1|]. split; congruence.
    + rewrite T1, N1, <- app_assoc. reflexivity.
    + rewrite N2, N1. reflexivity.
    + exact Y1.
    + rewrite U1. apply filter_ext. intros v. apply not_in_existsb.
    + congruence.
    + rewrite R2, E1, Q1. reflexivity.
    + intros N. rewrite Y2. apply R1, N.
  - eapply kept_problem_trans; [exact K1|]. rewrite P2. unfold kept_problem. cbn. auto 30.
Qed.

(** ** The values *)

Lemma bip_theta_values : forall opts net attr last a th, models_agree net attr -> Forall (far_known net) (both_ends net a) ->
  bip_theta opts net attr last a = Ok th -> forall el, el < do_elements opts ->
  passed th el = flat_map (far_list opts net last el) (both_ends net a).
Proof.
  intros opts net attr last a th A K H el Hel. unfold bip_theta in H. apply extend_all_spec in H.
  destruct H as [_ [vs [E V]]]. specialize (V el Hel). unfold theta_at in V. cbn [dget app] in V.
  unfold passed. rewrite V. clear V. apply map_Ok_inj_app in E. destruct E as [v1 [v2 [E1 [E2 ->]]]]. rewrite flat_map_app.
  assert (Y : forall b vs w, (forall v, In v vs -> far_known net (FarOutput b v)) ->
    map (last_values opts net last b "y") (find_syms vs (fst (attr b))) = map Ok w ->
    flat_map (fun v => concat (nth el v [])) w = flat_map (far_list opts net last el) (map (FarOutput b) vs)).
  { intros b vs w Kb Hw. rewrite (A b) in Hw. cbn [fst] in Hw. rewrite flat_map_map.
    destruct vs as [|v0 vs']; [destruct w; [reflexivity|discriminate]|]. destruct (Kb v0 (or_introl eq_refl)) as [_ N].
    rewrite find_each in Hw; [|exact N|intros v Hv; apply (Kb v Hv)]. rewrite map_map in Hw.
    apply (map_sent _ _ _ _ _) with (2 := Hw). intros v q _ Hq. apply last_values_y; assumption. }
  assert (U : forall b vs w, (forall v, In v vs -> far_known net (FarInput b v)) ->
    map (last_values opts net last b "u") (find_syms vs (snd (attr b))) = map Ok w ->
    flat_map (fun v => concat (nth el v [])) w = flat_map (far_list opts net last el) (map (FarInput b) vs)).
  { intros b vs w Kb Hw. rewrite (A b) in Hw. cbn [snd] in Hw. rewrite flat_map_map.
    destruct vs as [|v0 vs']; [destruct w; [reflexivity|discriminate]|]. destruct (Kb v0 (or_introl eq_refl)) as [_ N].
    rewrite find_each in Hw; [|exact N|intros v Hv; apply (Kb v Hv)]. rewrite map_map in Hw.
    apply (map_sent _ _ _ _ _) with (2 := Hw). intros v q _ Hq. apply last_values_u; assumption. }
  unfold both_ends in *. apply Forall_app in K. destruct K as [K1 K2]. rewrite Forall_forall in K1, K2.
  rewrite flat_map_app, !flat_map_flat_map. f_equal.
  - apply (parts_sent _ _ _ _ _) with (2 := E1). intros [b [y u]] w Hb Hw. unfold averaged_pred in Hw. cbn [fst snd] in Hw.
    apply map_Ok_inj_app in Hw. destruct Hw as [w1 [w2 [W1 [W2 ->]]]]. rewrite flat_map_app. unfold pair_of_pred. cbn [fst snd].
    rewrite flat_map_app. f_equal; [apply Y|apply U]; try assumption; intros v Hv; apply K1; apply in_flat_map; exists (b, (y, u));
      (split; [exact Hb|]); unfold pair_of_pred; cbn [fst snd]; apply in_or_app; [left|right]; apply in_map, Hv.
  - apply (parts_sent _ _ _ _ _) with (2 := E2). intros [b [y u]] w Hb Hw. unfold averaged_succ in Hw. cbn [fst snd] in Hw.
    apply map_Ok_inj_app in Hw. destruct Hw as [w1 [w2 [W1 [W2 ->]]]]. rewrite flat_map_app. unfold pair_of_succ. cbn [fst snd].
    rewrite flat_map_app. f_equal; [apply U|apply Y]; try assumption; intros v Hv; apply K2; apply in_flat_map; exists (b, (y, u));
      (split; [exact Hb|]); unfold pair_of_succ; cbn [fst snd]; apply in_or_app; [left|right]; apply in_map, Hv.
Qed.

Lemma bip_by_variable : forall opts net attr last a th, models_agree net attr -> Forall (far_known net) (both_ends net a) ->
  full_results opts last -> bip_theta opts net attr last a = Ok th -> forall el, el < do_elements opts ->
  by_variable opts net last el (both_ends net a) (passed th el).
Proof.
  intros opts net attr last a th A K R H el Hel. rewrite (bip_theta_values _ _ _ _ _ _ A K H el Hel). split.
  - apply length_flat_map_uniform. intros f _. apply far_list_length; assumption.
  - intros i k f Hf Hk. assert (Hi : i < length (both_ends net a)) by (apply nth_error_Some; congruence).
    rewrite (nth_flat_map_uniform _ (do_degree opts) _ i k f 0%Q); [|intros; apply far_list_length; assumption|exact Hi|exact Hk].
    rewrite (nth_error_nth _ _ f Hf). apply far_list_value; try assumption.
    rewrite Forall_forall in K. apply K. eapply nth_error_In, Hf.
Qed.

(** ** What the equations say *)

Lemma takes_app : forall env a b c d, length a = length c -> takes env (a ++ b) (c ++ d) -> takes env a c /\ takes env b d.
Proof.
  intros env a. unfold takes. induction a as [|x a IH]; intros b [|y c] d L H; try discriminate; [split; [constructor|exact H]|].
  cbn in H. inversion H; subst. cbn in L. injection L as L. destruct (IH b c d L ltac:(eassumption)) as [H1 H2].
  split; [constructor; assumption|exact H2].
Qed.

Lemma by_point_nth : forall degree first n i k, i < n -> k < degree ->
  nth (k * n + i) (by_point degree first n) 0%nat = (first + i * degree + k)%nat.
Proof.
  intros degree first n i k Hi Hk. unfold by_point.
  rewrite (nth_flat_map_uniform _ n _ k i 0%nat 0%nat); [|intros; rewrite map_length, seq_length; reflexivity|rewrite seq_length; exact Hk|exact Hi].
  rewrite (nth_map_in _ _ i 0%nat 0%nat) by (rewrite seq_length; exact Hi). rewrite !seq_nth by assumption. reflexivity.
Qed.

Lemma transposed_bounds : forall degree n k i, i < n -> k < degree ->
  fst (transposed degree n k i) < n /\ snd (transposed degree n k i) < degree /\
  (fst (transposed degree n k i) * degree + snd (transposed degree n k i) = k * n + i)%nat.
Proof.
  intros degree n k i Hi Hk. unfold transposed. cbn [fst snd]. repeat split.
  - apply Nat.div_lt_upper_bound; nia.
  - apply Nat.mod_upper_bound. lia.
  - pose proof (Nat.div_mod (k * n + i) degree ltac:(lia)). nia.
Qed.

Section Say.
  Variables (opts : dal_options) (net : dnet) (last : results) (el k : nat) (env : sym -> Q).
  Hypothesis R : full_results opts last.
  Hypothesis He : el < do_elements opts.
  Hypothesis Hk : k < do_degree opts.
  Let fl := far_list opts net last el.
  Let degree := do_degree opts.

  (** One vector of parameters. *)
  Lemma vector_values : forall first (end_ : sym -> far_end) vs i,
    (forall v, In v vs -> far_known net (end_ v)) -> i < length vs ->
    takes env (by_point degree first (length vs)) (flat_map fl (map end_ vs)) ->
    exists q, far_value net last el (snd (transposed degree (length vs) k i))
                (end_ (nth (fst (transposed degree (length vs) k i)) vs 0%nat)) q /\
      (env (first + i * degree + k)%nat == q)%Q.
  Proof.
    intros first end_ vs i Kn Hi T. destruct (transposed_bounds degree (length vs) k i Hi Hk) as [B1 [B2 B3]].
    set (e := fst (transposed degree (length vs) k i)) in *. set (k' := snd (transposed degree (length vs) k i)) in *. clearbody e k'.
    exists (nth k' (fl (end_ (nth e vs 0%nat))) 0%Q). split.
    - apply far_list_value; try assumption. apply Kn, nth_In, B1.
    - rewrite <- (by_point_nth degree first (length vs) i k Hi Hk).
      pose proof (ExoProofs.Forall2_at _ _ _ (k * length vs + i)%nat 0%nat 0%Q T) as X.
      rewrite by_point_length in X. rewrite X by (unfold degree in *; nia). rewrite <- B3.
      rewrite (nth_flat_map_uniform _ degree _ e k' (end_ 0%nat) 0%Q); [|intros; apply far_list_length; assumption|rewrite map_length; exact B1|exact B2].
      rewrite (map_nth end_). reflexivity.
  Qed.

  Variables (points : nat -> list Q) (tau : sym) (F : nat -> Q -> Q).
  Hypothesis Ht : (env tau == nth k (points degree) 0)%Q.

  Lemma block_says : forall diff (here there : sym -> far_end) mine theirs first es rest_p rest_v,
    (forall a b b', (b == b')%Q -> (diff a b == diff a b')%Q) ->
    length theirs = length mine ->
    (forall v, In v mine -> far_known net (here v)) -> (forall v, In v theirs -> far_known net (there v)) ->
    length es = length mine ->
    (forall i, i < length mine ->
         is_worth points degree tau (nth i es (EConst 0%Q))
           (fun env k => diff (env (nth i mine 0%nat))
              ((env (first + i * degree + k)%nat + env (first + (length mine + i) * degree + k)%nat) / 2))%Q) ->
    takes env (by_point degree first (length mine) ++ by_point degree (first + length mine * degree) (length mine) ++ rest_p)
              (flat_map fl (map there theirs ++ map here mine) ++ rest_v) ->
    say net last el F env diff here there mine theirs (transposed degree (length es) k) es /\ takes env rest_p rest_v.
  Proof.
    intros diff here there mine theirs first es rp rv Hd L Km Kt Le W T.
    assert (Fl : forall l, length (flat_map fl l) = (length l * degree)%nat).
    { intros l. apply length_flat_map_uniform. intros f _. apply far_list_length; assumption. }
    rewrite flat_map_app, <- app_assoc in T.
    apply takes_app in T; [|rewrite Fl, by_point_length, map_length, L; reflexivity]. destruct T as [T1 T].
    apply takes_app in T; [|rewrite Fl, by_point_length, map_length; reflexivity]. destruct T as [T2 T].
    split; [|exact T]. rewrite Le. split; [exact Le|]. intros i Hi. rewrite <- L in T1.
    destruct (vector_values first there theirs i Kt ltac:(congruence) T1) as [v [V1 V2]].
    destruct (vector_values (first + length mine * degree) here mine i Km Hi T2) as [w [W1 W2]].
    rewrite L in V1.
    exists ((v + w) / 2)%Q. split; [exists v, w; split; [exact V1|split; [exact W1|reflexivity]]|].
    rewrite (W i Hi F env k Hk Ht). apply Hd. rewrite V2.
    replace (first + (length mine + i) * degree + k)%nat with (first + length mine * degree + i * degree + k)%nat by nia.
    rewrite W2. reflexivity.
  Qed.
End Say.

Lemma input_minus_ext : forall a b b', (b == b')%Q -> (input_minus a b == input_minus a b')%Q.
Proof. intros a b b' H. unfold input_minus. rewrite H. reflexivity. Qed.
Lemma mean_minus_ext : forall a b b', (b == b')%Q -> (mean_minus a b == mean_minus a b')%Q.
Proof. intros a b b' H. unfold mean_minus. rewrite H. reflexivity. Qed.

Lemma preds_say : forall opts net last el k env points tau F a, full_results opts last -> el < do_elements opts -> k < do_degree opts ->
  (env tau == nth k (points (do_degree opts)) 0)%Q ->
  forall preds first algs rest_p rest_v,
  Forall (fun c => length (fst c) = length (snd c)) (map snd preds) ->
  Forall (far_known net) (flat_map (pair_of_pred a) preds) ->
  averages points (do_degree opts) tau input_minus first (map snd (map snd preds)) algs ->
  takes env (two_each (do_degree opts) first (map (@length sym) (map snd (map snd preds))) ++ rest_p)
            (flat_map (far_list opts net last el) (flat_map (pair_of_pred a) preds) ++ rest_v) ->
  Forall2 (fun pc es => say net last el F env input_minus (FarInput a) (FarOutput (fst pc)) (snd (snd pc)) (fst (snd pc))
                          (transposed (do_degree opts) (length es) k) es) preds algs /\ takes env rest_p rest_v.
Proof.
  intros opts net last el k env points tau F a R He Hk Ht preds. induction preds as [|[b [y u]] preds IH]; intros first algs rp rv L K W T.
  - cbn in W. destruct algs; [|contradiction]. split; [constructor|exact T].
  - cbn [map snd fst averages] in W. destruct algs as [|es algs]; [contradiction|]. destruct W as [W1 [W2 W3]].
    cbn [map snd fst] in L. inversion L as [|? ? L1 L2]; subst. cbn [fst snd] in L1.
    cbn [flat_map] in K. apply Forall_app in K. destruct K as [K1 K2]. unfold pair_of_pred in K1 at 1. cbn [fst snd] in K1.
    apply Forall_app in K1. destruct K1 as [Ky Ku]. rewrite Forall_forall in Ky, Ku.
    cbn [map snd fst two_each flat_map] in T. unfold pair_of_pred at 1 in T. cbn [fst snd] in T.
    rewrite flat_map_app in T. rewrite <- !app_assoc in T.
    pose proof (block_says opts net last el k env R He Hk points tau F Ht input_minus (FarInput a) (FarOutput b) u y first es _ _
      input_minus_ext L1 ltac:(intros v Hv; apply Ku, in_map, Hv) ltac:(intros v Hv; apply Ky, in_map, Hv) W1 W2 T) as [S T'].
    destruct (IH _ _ _ _ L2 K2 W3 T') as [I1 I2]. split; [constructor; assumption|exact I2].
Qed.

Lemma succs_say : forall opts net last el k env points tau F a, full_results opts last -> el < do_elements opts -> k < do_degree opts ->
  (env tau == nth k (points (do_degree opts)) 0)%Q ->
  forall succs first eqs rest_p rest_v,
  Forall (fun c => length (fst c) = length (snd c)) (map snd succs) ->
  Forall (far_known net) (flat_map (pair_of_succ a) succs) ->
  averages points (do_degree opts) tau mean_minus first (map fst (map snd succs)) eqs ->
  takes env (two_each (do_degree opts) first (map (@length sym) (map fst (map snd succs))) ++ rest_p)
            (flat_map (far_list opts net last el) (flat_map (pair_of_succ a) succs) ++ rest_v) ->
  Forall2 (fun sc es => say net last el F env mean_minus (FarOutput a) (FarInput (fst sc)) (fst (snd sc)) (snd (snd sc))
                          (transposed (do_degree opts) (length es) k) es) succs eqs /\ takes env rest_p rest_v.
Proof.
  intros opts net last el k env points tau F a R He Hk Ht succs. induction succs as [|[b [y u]] succs IH]; intros first eqs rp rv L K W T.
  - cbn in W. destruct eqs; [|contradiction]. split; [constructor|exact T].
  - cbn [map snd fst averages] in W. destruct eqs as [|es eqs]; [contradiction|]. destruct W as [W1 [W2 W3]].
    cbn [map snd fst] in L. inversion L as [|? ? L1 L2]; subst. cbn [fst snd] in L1.
    cbn [flat_map] in K. apply Forall_app in K. destruct K as [K1 K2]. unfold pair_of_succ in K1 at 1. cbn [fst snd] in K1.
    apply Forall_app in K1. destruct K1 as [Ku Ky]. rewrite Forall_forall in Ky, Ku.
    cbn [map snd fst two_each flat_map] in T. unfold pair_of_succ at 1 in T. cbn [fst snd] in T.
    rewrite flat_map_app in T. rewrite <- !app_assoc in T.
    pose proof (block_says opts net last el k env R He Hk points tau F Ht mean_minus (FarOutput a) (FarInput b) y u first es _ _
      mean_minus_ext ltac:(congruence) ltac:(intros v Hv; apply Ky, in_map, Hv) ltac:(intros v Hv; apply Ku, in_map, Hv) W1 W2 T) as [S T'].
    destruct (IH _ _ _ _ L2 K2 W3 T') as [I1 I2]. split; [constructor; assumption|exact I2].
Qed.

Lemma two_each_length : forall degree sizes first, length (two_each degree first sizes) = (2 * (list_sum sizes * degree))%nat.
Proof.
  intros degree sizes. induction sizes as [|n sizes IH]; intros first; [reflexivity|]. cbn [two_each list_sum fold_right].
  rewrite !app_length, !by_point_length, IH. unfold list_sum. lia.
Qed.
Lemma pairs_length : forall a (preds : list (addr * conn)), Forall (fun c => length (fst c) = length (snd c)) (map snd preds) ->
  length (flat_map (pair_of_pred a) preds) = (2 * list_sum (map (@length sym) (map snd (map snd preds))))%nat.
Proof.
  intros a preds. induction preds as [|[b [y u]] preds IH]; intros H; [reflexivity|]. cbn [map flat_map fst snd list_sum fold_right] in *. inversion H; subst.
  unfold pair_of_pred at 1. cbn [fst snd] in *. rewrite !app_length, !map_length, IH by assumption. unfold list_sum. lia.
Qed.
Lemma succ_pairs_length : forall a (succs : list (addr * conn)), Forall (fun c => length (fst c) = length (snd c)) (map snd succs) ->
  length (flat_map (pair_of_succ a) succs) = (2 * list_sum (map (@length sym) (map fst (map snd succs))))%nat.
Proof.
  intros a succs. induction succs as [|[b [y u]] succs IH]; intros H; [reflexivity|]. cbn [map flat_map fst snd list_sum fold_right] in *. inversion H; subst.
  unfold pair_of_succ at 1. cbn [fst snd] in *. rewrite !app_length, !map_length, IH by assumption. unfold list_sum. lia.
Qed.

Theorem w_C80_vector : forall points opts net attr last a s s' th el,
  averaging_node points opts net attr last a s s' th -> el < do_elements opts ->
  let m := o_model (e_problem s) in let m' := o_model (e_problem s') in
  length (m_theta m') = (length (m_theta m) + length (passed th el))%nat /\
  exists alg eqs,
    m_alg m' = m_alg m ++ concat alg /\ o_g_eq (e_problem s') = o_g_eq (e_problem s) ++ concat eqs /\
    forall F env k, m_theta m = [] -> takes env (m_theta m') (passed th el) ->
      k < do_degree opts -> (env (m_tau m) == nth k (points (do_degree opts)) 0)%Q ->
      all_say net last a el k F env (transposed (do_degree opts)) alg eqs.
Proof.
  intros points opts net attr last a s s' th el [G [A [H [K [R T]]]]] He m m'.
  apply bip_prepared in H; [|exact G]. destruct H as [L1 [L2 [[[alg [eqs [W1 [W2 [Ea [Eg _]]]]]] [Et _]] _]]].
  fold m in Ea, Et, W1, W2. fold m' in Ea, Et.
  assert (P := bip_theta_values _ _ _ _ _ _ A K T el He). unfold both_ends in P.
  split.
  { rewrite Et, app_length. f_equal. rewrite app_length, !two_each_length, P.
    rewrite (length_flat_map_uniform _ (do_degree opts)); [|intros f _; apply far_list_length; assumption].
    rewrite app_length, pairs_length, succ_pairs_length by assumption. lia. }
  exists alg, eqs. split; [exact Ea|]. split; [exact Eg|]. intros F env k Hth Tk Hk Ht.
  rewrite Et, Hth, P, flat_map_app in Tk. cbn [app] in Tk.
  unfold both_ends in K. apply Forall_app in K. destruct K as [K1 K2].
  destruct (preds_say opts net last el k env points (m_tau m) F a R He Hk Ht _ _ _ _ _ L1 K1 W1 Tk) as [S1 T2].
  rewrite <- (app_nil_r (two_each _ _ _)) in T2. rewrite <- (app_nil_r (flat_map _ (flat_map _ _))) in T2.
  destruct (succs_say opts net last el k env points (m_tau m) F a R He Hk Ht _ _ _ _ _ L2 K2 W2 T2) as [S2 _].
  split; assumption.
Qed.

Lemma simple_place : forall degree n k i, degree = 1%nat \/ n = 1%nat -> i < n -> k < degree -> transposed degree n k i = (i, k).
Proof.
  intros degree n k i H Hi Hk. destruct (transposed_bounds degree n k i Hi Hk) as [B1 [B2 B3]].
  destruct (transposed degree n k i) as [e k']. cbn [fst snd] in *. destruct H as [-> | ->]; f_equal; nia.
Qed.

Lemma say_ext : forall net last el F env diff here there mine theirs read read' es,
  (forall i, i < length mine -> read i = read' i) ->
  say net last el F env diff here there mine theirs read es -> say net last el F env diff here there mine theirs read' es.
Proof.
  intros net last el F env diff here there mine theirs read read' es E [H1 H2]. split; [exact H1|].
  intros i Hi. destruct (H2 i Hi) as [mean M]. exists mean. rewrite <- (E i Hi). exact M.
Qed.

Lemma Forall2_imp_in : forall {A B} (P Q : A -> B -> Prop) l m, (forall a b, In a l -> P a b -> Q a b) -> Forall2 P l m -> Forall2 Q l m.
Proof.
  intros A B P Q l m H F. induction F as [|a b l m Hab F IH]; constructor; [apply H; [left; reflexivity|exact Hab]|].
  apply IH. intros x y Hx. apply H. right. exact Hx.
Qed.

Theorem w_C80_meaning : forall points opts net attr last a s s' th el,
  averaging_node points opts net attr last a s s' th -> el < do_elements opts ->
  simple (do_degree opts) (map snd (dn_pred net a ++ dn_succ net a)) ->
  let m := o_model (e_problem s) in let m' := o_model (e_problem s') in
  length (m_theta m') = (length (m_theta m) + length (passed th el))%nat /\
  exists alg eqs,
    m_alg m' = m_alg m ++ concat alg /\ o_g_eq (e_problem s') = o_g_eq (e_problem s) ++ concat eqs /\
    forall F env k, m_theta m = [] -> takes env (m_theta m') (passed th el) ->
      k < do_degree opts -> (env (m_tau m) == nth k (points (do_degree opts)) 0)%Q ->
      all_say net last a el k F env same_place alg eqs.
Proof.
  intros points opts net attr last a s s' th el H He Sm m m'.
  destruct (w_C80_vector _ _ _ _ _ _ _ _ _ _ H He) as [L [alg [eqs [Ea [Eg S]]]]]. split; [exact L|].
  exists alg, eqs. split; [exact Ea|]. split; [exact Eg|]. intros F env k Hth Tk Hk Ht. specialize (S F env k Hth Tk Hk Ht).
  assert (D : forall c n, In c (map snd (dn_pred net a ++ dn_succ net a)) -> n = length (fst c) \/ n = length (snd c) -> do_degree opts = 1%nat \/ n = 1%nat).
  { intros c n Hc Hn. destruct Sm as [Sm|Sm]; [left; exact Sm|right]. rewrite Forall_forall in Sm. destruct (Sm c Hc), Hn; congruence. }
  destruct S as [S1 S2]. split.
  - refine (Forall2_imp_in _ _ _ _ _ S1). intros pc es Hp Hs. refine (say_ext _ _ _ _ _ _ _ _ _ _ _ _ _ _ Hs).
    intros i Hi. destruct Hs as [Le _]. unfold same_place. apply simple_place; [|congruence|exact Hk].
    apply (D (snd pc)); [apply in_map, in_or_app; left; exact Hp|right; exact Le].
  - refine (Forall2_imp_in _ _ _ _ _ S2). intros sc es Hp Hs. refine (say_ext _ _ _ _ _ _ _ _ _ _ _ _ _ _ Hs).
    intros i Hi. destruct Hs as [Le _]. unfold same_place. apply simple_place; [|congruence|exact Hk].
    apply (D (snd sc)); [apply in_map, in_or_app; right; exact Hp|left; exact Le].
Qed.

(** ** Examples *)



Lemma relay_points_good : good_points relay_points 2.
Proof.
  split; [lia|]. split; [reflexivity|].
  intros [|[|j]] [|[|k]] Hj Hk E; cbn in Hj, Hk; try lia; vm_compute in E; discriminate.
Qed.

Theorem w_C80_vector_refuted :
  exists s s' th, relay_start [] = Ok s /\
    averaging_node relay_points relay_options pipes_net pipes_attr pipes_results 1%nat s s' th /\
    (forall F env, takes env (m_theta (o_model (e_problem s'))) (passed th 0) -> (env (m_tau (o_model (e_problem s))) == 1 # 3)%Q ->
       exists e, nth_error (m_alg (o_model (e_problem s'))) 2 = Some e /\ (eval F env e == env 24%nat - (2 + 6) / 2)%Q) /\
    far_value pipes_net pipes_results 0 0 (FarOutput 0%nat 11%nat) 3%Q /\
    far_value pipes_net pipes_results 0 0 (FarInput 1%nat 24%nat) 7%Q.
Proof.
  do 3 eexists. split; [vm_compute; reflexivity|]. split.
  { split; [exact relay_points_good|]. split; [intros b; reflexivity|]. split; [vm_compute; reflexivity|]. split.
    - cbn. repeat constructor; cbn; intuition discriminate.
    - split; [|vm_compute; reflexivity]. intros b r el H He. unfold result_of in H. cbn in H.
      destruct b as [|[|b]]; cbn in H; try discriminate; injection H as <-; cbn in He; assert (el = 0%nat) by lia; subst; split; reflexivity. }
  split.
  { intros F env T Ht.
    match type of T with takes _ ?p ?v => let p' := eval vm_compute in p in let v' := eval vm_compute in v in
      assert (T' : takes env p' v') by exact T end. clear T. unfold takes in T'.
    eexists. split; [vm_compute; reflexivity|].
    repeat match goal with H : Forall2 _ (_ :: _) (_ :: _) |- _ => inversion H; clear H; subst end.
    change (m_tau (o_model (e_problem _))) with 2%nat in Ht. cbn [eval binop_eval].
    repeat match goal with H : (env _ == _)%Q |- _ => rewrite H; clear H end. generalize (env 24%nat). intros x. field. }
  split; (exists 1%nat; split; [split; [reflexivity|repeat constructor; cbn; intuition discriminate]|reflexivity]).
Qed.

Theorem w_C80_model_refuted :
  let attr a := if Nat.eqb a 1 then node_model (Some ([21%nat], [20; 24]%nat)) (dn_y relaxed_net a, dn_u relaxed_net a)
                else (dn_y relaxed_net a, dn_u relaxed_net a) in
  exists th, bip_theta relay_options relaxed_net attr relaxed_results 1%nat = Ok th /\
    nth_error (both_ends relaxed_net 1%nat) 1 = Some (FarInput 1%nat 20%nat) /\
    nth (1 * do_degree relay_options + 0) (passed th 0) 0%Q = 50%Q /\
    far_value relaxed_net relaxed_results 0 0 (FarInput 1%nat 20%nat) 2%Q /\
    far_value relaxed_net relaxed_results 0 0 (FarInput 1%nat 24%nat) 50%Q.
Proof.
  cbv zeta. eexists. split; [vm_compute; reflexivity|]. split; [reflexivity|]. split; [vm_compute; reflexivity|].
  split; [exists 1%nat|exists 0%nat]; (split; [split; [reflexivity|repeat constructor; cbn; intuition discriminate]|reflexivity]).
Qed.

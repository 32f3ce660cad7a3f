(** More proofs about the distributed method: whole solutions, and witnesses. *)
From Coq Require Import String Permutation Lqa Lia.
From Verif Require Import Base UtilModel ExprModel SysModel NlpModel NlpSpec SimModel DiscModel ResModel NetModel DalModel.
From Verif Require Import DalSpec BaseProofs UtilProofs DalProofs DalLoopProofs DalUpdateProofs.
Local Open Scope list_scope.

Lemma last_inner_app : forall h os m now,
  last_inner (h ++ [(os, m)]) now = match os with [] => last_inner h now | _ => (Z.of_nat (length os) - 1)%Z end.
Proof.
  induction h as [|[os' m'] h IH]; intros os m now; simpl; [destruct os; reflexivity|]. apply IH.
Qed.

Section Whole.
  Variable S : Type.
  Variable solve : addr -> S -> theta Q -> option (list Q) -> S * res node_result.
  Variable update : addr -> S -> theta Q -> list Q -> exogenous -> S * res (list Q).
  Variable primal_dual : addr -> S -> theta Q -> list Q -> exogenous -> S * res (Q * ext * list Q).
  Variable mu_of : S -> list Q.
  Variable set_mu : Q -> S -> S * res unit.
  Variable put_mu : list Q -> S -> S.
  Variables (opts : dal_options) (net : dnet) (blocks : dict nat (list addr)).
  Variable draw : nat -> list nat.
  Notation dstate := (dstate S).
  Notation solve_all := (dal_solve S solve update primal_dual mu_of set_mu put_mu opts net blocks draw).

  (** ** Sweeps, in terms of what the nodes are given *)

  Lemma serial_sweep : forall bs (s s' : dstate) found, NoDup (concat bs) ->
    solve_serial S solve opts net bs s = (s', Ok found) ->
    (forall a, ~ In a (concat bs) -> result_of (d_last S s') a = result_of (d_last S s) a /\
                                     d_method S s' a = d_method S s a /\ result_of found a = None) /\
    (forall pre a post, concat bs = pre ++ a :: post ->
       exists th r,
         (forall seen, (forall b, In b pre -> result_of seen b = result_of (d_last S s') b) ->
                       (forall b, ~ In b pre -> result_of seen b = result_of (d_last S s) b) ->
                       given opts net seen a th) /\
         solve a (d_method S s a) th (started (d_last S s) a) = (d_method S s' a, Ok r) /\
         result_of (d_last S s') a = kept (result_of (d_last S s) a) r /\
         result_of found a = kept None r).
  Proof.
    intros bs s s' found ND H. unfold solve_serial in H.
    destruct (serial_nodes_spec S solve opts net _ _ _ _ _ ND H) as [A B]. split.
    - intros a Ha. apply (A a Ha).
    - intros pre a post E. destruct (B pre a post E) as [th [r [B1 [B2 [B3 B4]]]]]. exists th, r.
      split; [|split; [exact B2|split; [exact B3|exact B4]]].
      intros seen H1 H2. apply node_theta_received. apply B1. intros b.
      destruct (memb Nat.eqb b pre) eqn:Eb; [apply H1, memb_iff, Eb|].
      apply H2. intros X. apply memb_iff in X. congruence.
  Qed.

  Lemma parallel_sweep : forall bs (s s' : dstate) found, NoDup (concat bs) ->
    solve_distributed S solve opts net bs s = (s', Ok found) ->
    d_last S s' = d_last S s /\
    (forall a, ~ In a (concat bs) -> d_method S s' a = d_method S s a /\ result_of found a = None) /\
    (forall a, In a (concat bs) ->
       exists th r, given opts net (d_last S s) a th /\
         solve a (d_method S s a) th (started (d_last S s) a) = (d_method S s' a, Ok r) /\
         result_of found a = kept None r).
  Proof.
    intros bs s s' found ND H. unfold solve_distributed in H.
    destruct (distributed_spec S solve opts net _ _ _ _ _ ND H) as [A [B C]].
    split; [exact A|]. split; [exact B|]. intros a Ha. destruct (C a Ha) as [r [[th [C1 C2]] C3]].
    exists th, r. split; [apply node_theta_received, C1|]. split; [exact C2|exact C3].
  Qed.

  Lemma serial_any_order : forall bs bs' (s s1 : dstate) f1, Permutation (concat bs) (concat bs') ->
    NoDup (concat bs) -> unconnected net (concat bs) -> solve_serial S solve opts net bs s = (s1, Ok f1) ->
    exists s2 f2, solve_serial S solve opts net bs' s = (s2, Ok f2) /\
      same_results f1 f2 /\ same_results (d_last S s1) (d_last S s2) /\
      (forall a, d_method S s1 a = d_method S s2 a).
  Proof.
    intros bs bs' s s1 f1 P ND U H.
    destruct (serial_order S solve opts net _ _ _ _ _ P ND U H) as [s2 [f2 [H1 [[H2 H3] H4]]]].
    exists s2, f2. split; [exact H1|]. split; [exact H4|]. split; assumption.
  Qed.

  Lemma sampled_blocks : forall k, do_choice opts = "sample"%string ->
    Permutation (draw k) (seq 0 (length blocks)) ->
    exists bs, block_iterator opts blocks draw k = Ok bs /\ Permutation bs (map snd blocks).
  Proof.
    intros k Hc P. unfold block_iterator. rewrite Hc. simpl. eexists. split; [reflexivity|].
    eapply Permutation_trans; [apply (Permutation_map _ P)|].
    unfold dvals. rewrite <- (map_length snd blocks). generalize (map snd blocks). clear.
    intros l. replace (map (fun i => nth i l []) (seq 0 (length l))) with l; [reflexivity|].
    apply nth_ext with [] (nth 0 l []).
    - rewrite map_length, seq_length. reflexivity.
    - intros n Hn. rewrite (map_nth (fun i => nth i l [])). rewrite seq_nth by exact Hn. reflexivity.
  Qed.

  (** ** What is kept *)

  Lemma in_dset : forall (d : results) a r b q, In (b, q) (dset Nat.eqb a r d) -> (b = a /\ q = r) \/ In (b, q) d.
  Proof.
    induction d as [|[c x] d IH]; intros a r b q H; simpl in H.
    - destruct H as [H|[]]. left. split; congruence.
    - destruct (Nat.eqb a c) eqn:E; simpl in H.
      + destruct H as [H|H]; [left; apply Nat.eqb_eq in E; split; congruence|right; right; exact H].
      + destruct H as [H|H]; [right; left; exact H|]. destruct (IH _ _ _ _ H) as [X|X]; [left; exact X|right; right; exact X].
  Qed.
  Lemma dset_keys : forall (d : results) a r b, In b (map fst (dset Nat.eqb a r d)) <-> b = a \/ In b (map fst d).
  Proof.
    induction d as [|[c x] d IH]; intros a r b; simpl.
    - split; [intros [H|[]]; left; congruence|intros [H|[]]; left; congruence].
    - destruct (Nat.eqb a c) eqn:E; simpl.
      + apply Nat.eqb_eq in E. subst c. split; [intros [H|H]; [left; congruence|right; right; exact H]|
          intros [H|[H|H]]; [left; congruence|left; congruence|right; exact H]].
      + rewrite IH. tauto.
  Qed.
  Lemma dset_nodup : forall (d : results) a r, NoDup (map fst d) -> NoDup (map fst (dset Nat.eqb a r d)).
  Proof.
    induction d as [|[c x] d IH]; intros a r H; simpl; [constructor; [intros []|constructor]|].
    inversion H as [|? ? N0 ND]; subst. destruct (Nat.eqb_spec a c) as [E|E]; simpl.
    - subst c. constructor; assumption.
    - constructor; [|apply IH, ND]. rewrite dset_keys. intros [X|X]; [congruence|contradiction].
  Qed.
  Lemma in_dupdate : forall (e d : results) b q, In (b, q) (dupdate Nat.eqb d e) -> In (b, q) e \/ In (b, q) d.
  Proof.
    unfold dupdate. induction e as [|[a r] e IH]; intros d b q H; simpl in H; [right; exact H|].
    destruct (IH _ _ _ H) as [X|X]; [left; right; exact X|].
    destruct (in_dset _ _ _ _ _ X) as [[-> ->]|Y]; [left; left; reflexivity|right; exact Y].
  Qed.
  Lemma dupdate_keys : forall (e d : results) b, In b (map fst (dupdate Nat.eqb d e)) <-> In b (map fst e) \/ In b (map fst d).
  Proof.
    unfold dupdate. induction e as [|[a r] e IH]; intros d b; simpl; [tauto|].
    rewrite IH. simpl. rewrite dset_keys. intuition congruence.
  Qed.
  Lemma dupdate_nodup : forall (e d : results), NoDup (map fst d) -> NoDup (map fst (dupdate Nat.eqb d e)).
  Proof.
    unfold dupdate. induction e as [|[a r] e IH]; intros d H; simpl; [exact H|]. apply IH, dset_nodup, H.
  Qed.
  Lemma in_result : forall (d : results) a, In a (map fst d) <-> result_of d a <> None.
  Proof.
    unfold result_of. induction d as [|[c x] d IH]; intros a; simpl; [split; [intros []|intros H; apply H; reflexivity]|].
    destruct (Nat.eqb_spec a c) as [E|E].
    - split; [discriminate|]. intros _. left. congruence.
    - rewrite <- IH. split; [intros [X|X]; [congruence|exact X]|tauto].
  Qed.

  (** What holds of the results of a solution at all times. *)
  Definition good (l : loop S) : Prop :=
    NoDup (map fst (l_results S l)) /\ forall a r, In (a, r) (l_results S l) -> nr_success r = true.

  Lemma sweep_results : forall l l' o, sweep S solve opts net blocks draw l = (l', Ok o) ->
    exists new, l_results S l' = dupdate Nat.eqb (l_results S l) (filter (fun ar => nr_success (snd ar)) new).
  Proof.
    intros l l' o H. unfold sweep, cbind, cres in H.
    destruct (block_iterator opts blocks draw (l_sweeps S l)) as [bs|]; [|discriminate].
    unfold in_loop in H. destruct (solve_nodes S solve opts net bs (l_state S l)) as [s [new|]]; [|discriminate].
    unfold cmodify in H. assert (E : fst (l', Ok o) = l') by reflexivity. rewrite <- H in E. simpl in E.
    exists new. rewrite <- E. reflexivity.
  Qed.
  Lemma sweep_good : forall l l' o, good l -> sweep S solve opts net blocks draw l = (l', Ok o) -> good l'.
  Proof.
    intros l l' o [G1 G2] H. destruct (sweep_results _ _ _ H) as [new E]. split; rewrite E.
    - apply dupdate_nodup, G1.
    - intros a r Ha. apply in_dupdate in Ha. destruct Ha as [Ha|Ha]; [|apply (G2 a r Ha)].
      apply filter_In in Ha. apply Ha.
  Qed.
  Lemma sweep_keeps : forall l l' o a, good l -> sweep S solve opts net blocks draw l = (l', Ok o) ->
    result_of (l_results S l) a <> None -> exists r, result_of (l_results S l') a = Some r /\ nr_success r = true.
  Proof.
    intros l l' o a G H Ha. destruct (sweep_results _ _ _ H) as [new E].
    assert (Hn : result_of (l_results S l') a <> None).
    { apply in_result. rewrite E. apply dupdate_keys. right. apply in_result, Ha. }
    destruct (result_of (l_results S l') a) as [r|] eqn:Er; [|congruence]. exists r. split; [reflexivity|].
    destruct (sweep_good _ _ _ G H) as [N1 N2]. apply (N2 a). apply (result_of_in _ _ _ N1). exact Er.
  Qed.

  Lemma inner_good : forall n last l l' os, good l -> inner_loop S solve opts net blocks draw n last l = (l', Ok os) -> good l'.
  Proof.
    induction n as [|n IH]; intros last l l' os G H; cbn [DalModel.inner_loop] in H.
    - unfold cret in H. assert (l' = l) by congruence. subst. exact G.
    - unfold cbind in H. destruct (sweep S solve opts net blocks draw l) as [l1 [o|]] eqn:E1; [|discriminate].
      pose proof (sweep_good _ _ _ G E1) as G1. destruct (no_decrease opts o last).
      + unfold cret in H. assert (l' = l1) by congruence. subst. exact G1.
      + destruct (inner_loop S solve opts net blocks draw n (Fin o) l1) as [l2 [os2|]] eqn:E2; [|discriminate].
        unfold cret in H. assert (l' = l2) by congruence. subst l2. apply (IH _ _ _ _ G1 E2).
  Qed.
  Lemma outer_good : forall n k es l l' x, good l ->
    outer_loop S solve update primal_dual mu_of set_mu put_mu opts net blocks draw n k es l = (l', Ok x) -> good l'.
  Proof.
    induction n as [|n IH]; intros k es l l' x G H; cbn [DalModel.outer_loop] in H.
    - unfold cret in H. assert (l' = l) by congruence. subst. exact G.
    - unfold cbind at 1 in H. destruct (inner_loop S solve opts net blocks draw (inner_iterations opts k) PInf l) as [l1 [os|]] eqn:E1; [|discriminate].
      pose proof (inner_good _ _ _ _ _ G E1) as G1.
      unfold cbind at 1 in H. unfold in_loop in H.
      destruct (update_parameters S update primal_dual mu_of set_mu put_mu opts net blocks (l_proxies S l1) (l_results S l1) (l_state S l1)) as [s2 [es1|]]; [|discriminate].
      unfold cbind at 1, cres in H. destruct (max_error es1) as [m|]; [|discriminate].
      destruct (negb (Qle_bool (do_abs_tol opts) m)).
      + unfold cret in H. assert (l' = mkLoop S s2 (l_results S l1) (l_sweeps S l1) (l_proxies S l1)) by congruence. subst l'. exact G1.
      + unfold cbind in H.
        destruct (outer_loop S solve update primal_dual mu_of set_mu put_mu opts net blocks draw n (k + 1) es1 (mkLoop S s2 (l_results S l1) (l_sweeps S l1) (l_proxies S l1))) as [l3 [y|]] eqn:E3; [|discriminate].
        unfold cret in H. assert (l' = l3) by congruence. subst l3. apply (IH _ _ _ _ _ (G1 : good (mkLoop S s2 _ _ _)) E3).
  Qed.

  (** ** A whole solution *)

  Lemma solution : forall (s s' : dstate) d, (do_inner_tol opts <= 1)%Q -> solve_all s = (s', Ok d) ->
    outer_rule (do_abs_tol opts) (do_outer opts) (map snd (dr_history d)) /\
    (forall k os m, nth_error (dr_history d) k = Some (os, m) ->
       inner_rule (do_inner_tol opts) (sweeps_allowed opts k) os) /\
    (forall h os m, dr_history d = h ++ [(os, m)] ->
       is_largest (concat (map snd (dr_errors d))) m /\
       dr_outer d = Z.of_nat (length h) /\
       (os <> [] -> dr_inner d = (Z.of_nat (length os) - 1)%Z)) /\
    dr_blocks d = (list_sum (map (fun om => length (fst om)) (dr_history d)) * length blocks)%nat /\
    (dr_objective d == sum_of (map (fun ar => nr_objective (snd ar)) (dr_results d)))%Q /\
    NoDup (map fst (dr_results d)) /\
    (forall a r, result_of (dr_results d) a = Some r -> nr_success r = true) /\
    (1 <= do_outer opts)%nat /\ dr_errors d <> [] /\
    ((1 <= do_inner opts)%nat -> d_last S s' = dr_results d).
  Proof.
    intros s s' d Ht H. unfold dal_solve in H.
    destruct (outer_loop S solve update primal_dual mu_of set_mu put_mu opts net blocks draw (do_outer opts) 0 [] (mkLoop S s [] 0 []))
      as [l [[h es]|e]] eqn:E; [|discriminate].
    assert (Hout : (1 <= do_outer opts)%nat).
    { destruct (do_outer opts) as [|n]; [|lia]. cbn in E. unfold cret in E.
      assert (X : es = []) by congruence. subst es. discriminate. }
    assert (Hes : es <> []) by (intros ->; discriminate).
    destruct es as [|p0 es0]; [discriminate|]. set (es := p0 :: es0) in *.
    assert (Hs : s' = l_state S l) by congruence.
    assert (Hd : d = mkDalResult (l_results S l) (total (l_results S l)) es (last_inner h (-1)%Z)
                                    (Z.of_nat (length h) - 1) (l_sweeps S l * length blocks) h) by congruence.
    subst s' d. clear H. cbn [dr_history dr_errors dr_outer dr_inner dr_blocks dr_objective dr_results].
    destruct (outer_spec S solve update primal_dual mu_of set_mu put_mu opts net blocks draw _ _ _ _ _ _ _ Ht E)
      as [O1 [O2 [O3 [O4 [O5 [O6 O7]]]]]].
    assert (G : good l).
    { apply (outer_good _ _ _ _ _ _ (conj (NoDup_nil _) (fun a r (H : In (a, r) []) => match H with end) : good (mkLoop S s [] 0 [])) E). }
    split; [exact O1|]. split; [intros k os m Hk; apply (O2 k os m Hk)|]. split; [|split; [|split; [|split; [|split; [|split; [|split]]]]]].
    - intros h' os m Eh. split; [apply (O5 h' os m Eh)|]. subst h. rewrite app_length. simpl length. split; [lia|].
      intros Ho. rewrite last_inner_app. destruct os; [congruence|reflexivity].
    - rewrite O3. simpl. reflexivity.
    - apply total_sum.
    - apply G.
    - intros a r Ha. destruct G as [G1 G2]. apply (G2 a r). apply (result_of_in _ _ _ G1). exact Ha.
    - exact Hout.
    - exact Hes.
    - intros Hi. apply O7. destruct h as [|[os m] h].
      + exfalso. destruct O1 as [_ [_ O1]]. simpl in O1. destruct O1 as [k [m [X _]]]; [lia|]. destruct k; discriminate.
      + exists os, m. split; [left; reflexivity|]. apply (O2 0%nat os m eq_refl). unfold sweeps_allowed. simpl. lia.
  Qed.

  Lemma no_iteration : forall s, do_outer opts = 0%nat -> solve_all s = (s, Raise ValueError).
  Proof. intros s H. unfold dal_solve. rewrite H. reflexivity. Qed.

  (** ** Solutions that fail *)

  Lemma unknown_choice : forall s, ~ In (do_choice opts) ["cyclic"; "choices"; "sample"]%string ->
    (1 <= do_outer opts)%nat -> (1 <= do_inner opts)%nat -> snd (solve_all s) = Raise ValueError.
  Proof.
    intros s Hc Ho Hi. unfold dal_solve. destruct (do_outer opts) as [|n]; [lia|]. cbn [DalModel.outer_loop].
    unfold cbind at 1. destruct (inner_iterations opts 0) as [|k] eqn:Ek.
    { exfalso. unfold inner_iterations in Ek. destruct (do_inner_first opts); lia. }
    cbn [DalModel.inner_loop]. unfold cbind at 1, sweep, cbind at 1, cres, block_iterator.
    destruct (String.eqb_spec (do_choice opts) "cyclic") as [X|_]; [exfalso; apply Hc; left; congruence|].
    destruct (String.eqb_spec (do_choice opts) "choices") as [X|_]; [exfalso; apply Hc; right; left; congruence|].
    destruct (String.eqb_spec (do_choice opts) "sample") as [X|_]; [exfalso; apply Hc; right; right; left; congruence|].
    reflexivity.
  Qed.

  Hypothesis Hfail : forall a m th g m' r, solve a m th g = (m', Ok r) -> nr_success r = false.

  Lemma serial_none : forall l (s s' : dstate) f, solve_serial_nodes S solve opts net l [] s = (s', Ok f) -> f = [].
  Proof.
    induction l as [|a l IH]; intros s s' f H; simpl in H; [unfold cret in H; congruence|].
    unfold cbind in H. destruct (solve_serial_node S solve opts net a [] s) as [s1 [f1|]] eqn:E1; [|discriminate].
    unfold solve_serial_node, cbind, reading in E1.
    destruct (node_theta opts net (d_last S s) a); [|discriminate].
    unfold on_node in E1. destruct (solve a (d_method S s a) _ _) as [m [r|]] eqn:Es; [|discriminate].
    rewrite (Hfail _ _ _ _ _ _ Es) in E1. unfold cret in E1. assert (f1 = []) by congruence. subst f1.
    apply (IH _ _ _ H).
  Qed.
  Lemma call_all_fail : forall jobs (s s' : dstate) acc acc',
    (forall a r, In (a, Ok r) acc -> nr_success r = false) ->
    call_all S solve jobs s acc = (s', acc') -> forall a r, In (a, Ok r) acc' -> nr_success r = false.
  Proof.
    induction jobs as [|[a [th g]] jobs IH]; intros s s' acc acc' Ha H; simpl in H.
    - assert (acc' = acc) by congruence. subst. exact Ha.
    - unfold on_node in H. destruct (solve a (d_method S s a) th g) as [m r] eqn:Es.
      apply (fun X => IH _ _ _ _ X H). clear - Ha Es Hfail. intros b q Hb.
      assert (X : forall d : dict addr (res node_result), In (b, Ok q) (dset Nat.eqb a r d) -> (Ok q = r) \/ In (b, Ok q) d).
      { induction d as [|[c x] d IHd]; simpl; [intros [E|[]]; left; congruence|].
        destruct (Nat.eqb a c); simpl; intros [E|E]; [left; congruence|tauto|right; left; exact E|].
        destruct (IHd E) as [Y|Y]; [left; exact Y|right; right; exact Y]. }
      destruct (X _ Hb) as [Y|Y]; [subst r; apply (Hfail _ _ _ _ _ _ Es)|apply (Ha _ _ Y)].
  Qed.
  Lemma read_all_in : forall (l : dict addr (res node_result)) d, read_all l = Ok d -> forall a r, In (a, r) d -> In (a, Ok r) l.
  Proof.
    induction l as [|[b [x|]] l IH]; intros d H a r Hr; simpl in H; [injection H as <-; destruct Hr| |discriminate].
    destruct (read_all l) as [d'|]; [|discriminate]. injection H as <-. destruct Hr as [E|E]; [left; congruence|].
    right. apply (IH d' eq_refl a r E).
  Qed.
  Lemma filter_none : forall l : results, (forall a r, In (a, r) l -> nr_success r = false) ->
    filter (fun ar => nr_success (snd ar)) l = [].
  Proof.
    induction l as [|[a r] l IH]; intros H; simpl; [reflexivity|]. rewrite (H a r (or_introl eq_refl)).
    apply IH. intros b q Hb. apply (H b q). right. exact Hb.
  Qed.
  Lemma distributed_none : forall bs (s s' : dstate) f, solve_distributed_blocks S solve opts net bs [] s = (s', Ok f) -> f = [].
  Proof.
    induction bs as [|b bs IH]; intros s s' f H; simpl in H; [unfold cret in H; congruence|].
    unfold cbind in H. destruct (solve_distributed_block S solve opts net b [] s) as [s1 [f1|]] eqn:E1; [|discriminate].
    unfold solve_distributed_block, cbind, reading in E1.
    destruct (res_map (job_of opts net (d_last S s)) b) as [jobs|]; [|discriminate].
    destruct (call_all S solve jobs s []) as [s2 acc] eqn:E2.
    destruct (read_all acc) as [rs|] eqn:E3; [|discriminate]. unfold cret in E1.
    rewrite filter_none in E1.
    - assert (f1 = []) by (unfold dupdate in E1; simpl in E1; congruence). subst f1. apply (IH _ _ _ H).
    - intros a r Hr. apply (call_all_fail _ _ _ _ _ (fun a r (H : In (a, Ok r) []) => match H with end) E2 a).
      apply (read_all_in _ _ E3 a r Hr).
  Qed.
  Lemma sweep_none : forall l l' o, l_results S l = [] -> sweep S solve opts net blocks draw l = (l', Ok o) -> l_results S l' = [].
  Proof.
    intros l l' o H0 H. unfold sweep, cbind, cres in H.
    destruct (block_iterator opts blocks draw (l_sweeps S l)) as [bs|]; [|discriminate].
    unfold in_loop in H. destruct (solve_nodes S solve opts net bs (l_state S l)) as [s [new|]] eqn:En; [|discriminate].
    assert (new = []).
    { unfold solve_nodes in En. destruct (do_distributed opts); [apply (distributed_none _ _ _ _ En)|apply (serial_none _ _ _ _ En)]. }
    subst new. unfold cmodify in H. assert (E : fst (l', Ok o) = l') by reflexivity. rewrite <- H in E. simpl in E.
    rewrite <- E. simpl. exact H0.
  Qed.
  Lemma inner_none : forall n last l l' os, l_results S l = [] ->
    inner_loop S solve opts net blocks draw n last l = (l', Ok os) -> l_results S l' = [].
  Proof.
    induction n as [|n IH]; intros last l l' os G H; cbn [DalModel.inner_loop] in H.
    - unfold cret in H. assert (l' = l) by congruence. subst. exact G.
    - unfold cbind in H. destruct (sweep S solve opts net blocks draw l) as [l1 [o|]] eqn:E1; [|discriminate].
      pose proof (sweep_none _ _ _ G E1) as G1. destruct (no_decrease opts o last).
      + unfold cret in H. assert (l' = l1) by congruence. subst. exact G1.
      + destruct (inner_loop S solve opts net blocks draw n (Fin o) l1) as [l2 [os2|]] eqn:E2; [|discriminate].
        unfold cret in H. assert (l' = l2) by congruence. subst l2. apply (IH _ _ _ _ G1 E2).
  Qed.

  Lemma no_success : forall s, (1 <= do_outer opts)%nat -> exists e, snd (solve_all s) = Raise e.
  Proof.
    intros s Ho. unfold dal_solve. destruct (do_outer opts) as [|n]; [lia|]. cbn [DalModel.outer_loop].
    unfold cbind at 1. destruct (inner_loop S solve opts net blocks draw (inner_iterations opts 0) PInf (mkLoop S s [] 0 [])) as [l1 [os|e]] eqn:E1;
      [|exists e; reflexivity].
    pose proof (inner_none _ _ (mkLoop S s [] 0 []) _ _ eq_refl E1) as N. unfold cbind at 1, in_loop at 1. rewrite N.
    destruct (update_parameters S update primal_dual mu_of set_mu put_mu opts net blocks (l_proxies S l1) [] (l_state S l1)) as [s2 [es|e]] eqn:E2;
      [|exists e; reflexivity].
    assert (es = []).
    { unfold update_parameters, update_distributed, update_serial in E2.
      destruct (String.eqb (do_rule opts) "primal-dual").
      - assert (PD : forall has missing, update_primal_dual S primal_dual mu_of set_mu opts net blocks has missing [] (l_state S l1) = (s2, Ok es) -> es = []).
        { intros has missing X. unfold update_primal_dual, cbind in X. simpl in X.
          destruct (res_map (first_mu S mu_of has missing (l_state S l1)) (dn_nodes net)) as [[|mu mus]|]; [discriminate| |discriminate].
          unfold cret in X. destruct (negb (forallb (Qeq_bool mu) mus)); discriminate. }
        destruct (do_distributed opts); apply (PD _ _ E2).
      - destruct (do_distributed opts).
        + unfold cbind in E2. simpl in E2. unfold cret in E2. destruct (sync_mu S mu_of put_mu (l_proxies S l1) (l_state S l1)) as [s3 [[]|]]; congruence.
        + unfold by_id in E2. simpl in E2. unfold cret in E2. congruence. }
    subst es. exists TypeError. reflexivity.
  Qed.
End Whole.

(** ** Sweeps that change nothing *)

Lemma stationary_stops : forall tol n os c, (0 < tol)%Q -> (0 < c)%Q -> inner_rule tol n os ->
  Forall (fun o => o == c)%Q os -> (length os <= 2)%nat.
Proof.
  intros tol n os c Ht Hc [_ [H _]] F. destruct os as [|o [|o' [|o'' os]]]; simpl; try lia.
  exfalso. specialize (H 0%nat o o' eq_refl eq_refl). simpl in H.
  assert (H' : (o' <= (1 - tol) * o)%Q) by (apply H; lia).
  inversion F as [|? ? F1 F2]; subst. inversion F2 as [|? ? F3 _]; subst. rewrite F1, F3 in H'. nra.
Qed.
Lemma stationary_goes_on : forall tol n os c, (0 <= tol)%Q -> (c <= 0)%Q -> inner_rule tol n os ->
  Forall (fun o => o == c)%Q os -> length os = n.
Proof.
  intros tol n os c Ht Hc [Hl [_ H]] F. destruct (Nat.lt_ge_cases (length os) n) as [Hlt|Hge]; [|lia].
  exfalso. destruct (H Hlt) as [k [o [o' [K1 [K2 [_ K3]]]]]].
  rewrite Forall_forall in F. pose proof (F _ (nth_error_In _ _ K1)) as F1. pose proof (F _ (nth_error_In _ _ K2)) as F2.
  rewrite F1, F2 in K3. nra.
Qed.

(** ** Nodes without a result *)

Lemma failed_node : forall S update primal_dual mu_of set_mu put_mu opts net blocks proxies rd (s s' : dstate S) es a b x y l l',
  NoDup (map fst rd) -> do_rule opts = "primal-dual"%string ->
  update_parameters S update primal_dual mu_of set_mu put_mu opts net blocks proxies rd s = (s', Ok es) ->
  In a (dn_nodes net) -> In b (dn_nodes net) -> result_of rd b = None ->
  mu_of (d_method S s a) = x :: l -> mu_of (d_method S s' a) = y :: l' -> ~ (x == y)%Q ->
  forall proxies' rd', exists e,
    snd (update_parameters S update primal_dual mu_of set_mu put_mu opts net blocks proxies' rd' s') = Raise e.
Proof.
  intros S update primal_dual mu_of set_mu put_mu opts net blocks proxies rd s s' es a b x y l l' ND Hr H Ha Hb Nb Hx Hy Hn proxies' rd'.
  destruct (primal_dual_update S update primal_dual mu_of set_mu put_mu opts net blocks _ _ _ _ _ ND Hr H)
    as [mu [mu' [m1 [rs [r [ds [P1 [_ [_ [_ [_ [P2 _]]]]]]]]]]]].
  destruct (P1 b Hb) as [q [lb [Q1 Q2]]]. destruct (P1 a Ha) as [q' [la [Q3 Q4]]].
  rewrite <- (P2 b Nb) in Q1.
  apply (differing_refused S update primal_dual mu_of set_mu put_mu opts net blocks proxies' rd' s' a b y q l' lb Hr Ha Hb Hy Q1).
  intros X. apply Hn. assert (q' = x) by congruence. subst q'. rewrite Q4, X, Q2. reflexivity.
Qed.

(** ** Witnesses *)

Lemma link_sweeps : exists S solve opts net bs (s s1 s2 : dstate S) f1 f2 r1 r2,
  NoDup (concat bs) /\ Forall (unconnected net) bs /\
  solve_serial S solve opts net bs s = (s1, Ok f1) /\ solve_distributed S solve opts net bs s = (s2, Ok f2) /\
  result_of f1 1%nat = Some r1 /\ result_of f2 1%nat = Some r2 /\ ~ (nr_objective r1 == nr_objective r2)%Q.
Proof.
  exists (list Q * nat)%type, (link_solve (fun _ _ => true)), (link_options false "constant"), link_net, [[0%nat]; [1%nat]], link_start.
  eexists; eexists; eexists; eexists; eexists; eexists.
  split; [repeat constructor; simpl; intuition congruence|].
  split. { constructor; [|constructor; [|constructor]]; intros a b [<-|[]] [<-|[]] N; congruence. }
  split; [vm_compute; reflexivity|]. split; [vm_compute; reflexivity|].
  split; [vm_compute; reflexivity|]. split; [vm_compute; reflexivity|]. vm_compute. discriminate.
Qed.

Lemma link_forgets : exists S solve update primal_dual mu_of set_mu put_mu opts net blocks draw (s s1 s2 : dstate S) d1 d2,
  dal_solve S solve update primal_dual mu_of set_mu put_mu opts net blocks draw s = (s1, Ok d1) /\
  dal_solve S solve update primal_dual mu_of set_mu put_mu opts net blocks draw (mkState S (d_last S s1) (d_method S s)) = (s2, Ok d2) /\
  (exists r, result_of (d_last S s1) 1%nat = Some r /\ nr_success r = true) /\
  result_of (d_last S s2) 1%nat = None.
Proof.
  exists (list Q * nat)%type, island_solve, (link_update 1%Q), (link_primal_dual 1%Q), fst, link_set, link_put.
  exists island_options, island_net, link_blocks, (fun _ => []), link_start.
  eexists; eexists; eexists; eexists.
  split; [vm_compute; reflexivity|]. split; [vm_compute; reflexivity|].
  split; [eexists; split; vm_compute; reflexivity|]. vm_compute. reflexivity.
Qed.

Lemma link_single : exists S solve update primal_dual mu_of set_mu put_mu opts net blocks draw (s : dstate S),
  dn_nodes net = [0%nat] /\ (1 <= do_outer opts)%nat /\ (0 < do_abs_tol opts)%Q /\
  (forall a m th g, exists m' r, solve a m th g = (m', Ok r) /\ nr_success r = true) /\
  (forall a m th x ex, exists m', update a m th x ex = (m', Ok [0%Q])) /\
  snd (dal_solve S solve update primal_dual mu_of set_mu put_mu opts net blocks draw s) = Raise TypeError.
Proof.
  exists (list Q * nat)%type, (link_solve (fun _ _ => true)), (fun a m th x ex => (m, Ok [0%Q])), (link_primal_dual 1%Q), fst, link_set, link_put.
  exists (link_options false "constant").
  exists (mkDnet [0%nat] (fun _ => []) (fun _ => []) (fun _ => []) (fun _ => []) (fun _ => None) (fun _ => None) Z.of_nat).
  exists [(0%nat, [0%nat])], (fun _ => []), link_start.
  split; [reflexivity|]. split; [simpl; lia|]. split; [vm_compute; reflexivity|].
  split; [intros a m th g; eexists; eexists; split; reflexivity|].
  split; [intros a m th x ex; eexists; reflexivity|]. vm_compute. reflexivity.
Qed.

Lemma link_unequal : exists S solve update primal_dual mu_of set_mu put_mu opts net blocks draw (s s' : dstate S) d,
  do_distributed opts = false /\ (forall a b, mu_of (d_method S s a) = mu_of (d_method S s b)) /\
  dal_solve S solve update primal_dual mu_of set_mu put_mu opts net blocks draw s = (s', Ok d) /\
  mu_of (d_method S s' 0%nat) <> mu_of (d_method S s' 1%nat).
Proof.
  exists (list Q * nat)%type, (link_solve (fun _ _ => true)), (link_update 1%Q), (link_primal_dual 1%Q), fst, link_set, link_put.
  exists (link_options false "constant"), link_net, link_blocks, (fun _ => []), link_start.
  eexists; eexists. split; [reflexivity|]. split; [reflexivity|]. split; [vm_compute; reflexivity|]. vm_compute. discriminate.
Qed.

Lemma sweep_keeps_results : forall S solve opts net blocks draw l l' o a,
  NoDup (map fst (l_results S l)) /\ (forall a r, In (a, r) (l_results S l) -> nr_success r = true) ->
  sweep S solve opts net blocks draw l = (l', Ok o) ->
  result_of (l_results S l) a <> None -> exists r, result_of (l_results S l') a = Some r /\ nr_success r = true.
Proof.
  intros S solve. apply (sweep_keeps S solve (fun _ m _ _ _ => (m, Raise AnyException)) (fun _ m _ _ _ => (m, Raise AnyException))).
Qed.

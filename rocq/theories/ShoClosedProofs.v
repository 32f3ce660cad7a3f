(** Proofs about the symbols of the nonlinear program of multiple shooting: they are its
    decision variables, its parameters and the results of the simulations. *)
From Coq Require Import String.
From Verif Require Import Base BaseProofs UtilModel ExprModel ExprProofs NlpModel NlpSpec SysModel SysSpec SimModel OcpModel
  OcpSpec LagModel LagSpec DiscModel DiscSpec DiscProofs ColSpec ColEvalProofs ColTopProofs ColClosedProofs
  ShoModel ShoSpec ShoShotProofs ShoProofs ShoTopProofs ShoMoreProofs.
Local Open Scope list_scope.
Local Open Scope nat_scope.

Section Closed.
  Variables (buildable : optval -> string -> dict string (list expr) -> options -> bool)
    (label : nat -> nat -> string) (defaults : options) (ty : string) (k : method) (c : nat)
    (n : nlp) (s : par_syms) (r : traj sym) (shots : list shot).
  Hypothesis T : shootable k.
  Hypothesis H : create_optimization_problem (shooting_discretize buildable label defaults ty k) k c = Ok (n, s, (r, shots)).

  Lemma sho_np : np n = if has_parameters k then all_mx s else [].
  Proof.
    destruct (create_np _ _ _ _ _ _ _ H) as [n0 [c0 [Hd Enp]]].
    destruct (sho_sizes _ _ _ _ _ _ _ _ _ _ H) as [_ [Lp [Rt Lx]]].
    destruct (description_exists _ _ _ _ _ _ _ _ _ _ T H (fun _ => 0%Q)) as [h D].
    destruct (sho_discretize_ok buildable label defaults ty k (fun _ x => x) _ _ _ _ _ _ _ (fun f a b E => E) T Lp Rt Lx Hd _ _
                (fun el => match nth_error shots el with
                           | Some sh => (map (fun _ => 0%Q) (sh_xf sh), map (fun _ => 0%Q) (sh_zf sh)) | None => ([], []) end) D)
      as [l [cost [E _]]].
    { intros el sh Hsh. rewrite Hsh. reflexivity. }
    rewrite Enp, E. reflexivity.
  Qed.

  Lemma describes_shooting_same : forall env env' h, (forall v, In v (flatten r) \/ In v (all_mx s) -> env v = env' v) ->
      describes_shooting k env s r h -> describes_shooting k env' s r h.
  Proof.
    intros env env' h S [D1 D2 D3 D4 D5 D6 D7 D8].
    assert (Sf : forall v, In v (flatten r) -> env v = env' v) by (intros v I; apply S; left; exact I).
    assert (Sp : forall v, In v (ps_x0 s) \/ In v (ps_p s ++ concat (ps_theta s) ++ ps_last_u s) -> env v = env' v).
    { intros v I. apply S. right. apply in_all_mx. exact I. }
    assert (C : forall (l : list (list (list sym))) el w, (forall v, In v (concat (concat l)) -> env v = env' v) ->
        nth_error l el = Some w -> map env (concat w) = map env' (concat w)).
    { intros l el w Sl Hw. apply map_same. intros v Hv. apply Sl. apply in_concat in Hv. destruct Hv as [x [Hx Hv]].
      apply in_concat. exists x. split; [exact (in_concat_nth _ _ _ _ _ Hw Hx) | exact Hv]. }
    constructor.
    - intros el l Hl. rewrite (D1 el l Hl). exact (C _ _ _ (same_x r env env' Sf) Hl).
    - intros el l Hl. rewrite (D2 el l Hl). exact (C _ _ _ (same_y r env env' Sf) Hl).
    - intros el l Hl. rewrite (D3 el l Hl). exact (C _ _ _ (same_u r env env' Sf) Hl).
    - rewrite <- (map_same env env' (ps_p s)), <- (map_same env env' (r_p r)); [exact D4 | exact (same_p r env env' Sf) |].
      intros v Hv. apply Sp. right. apply in_or_app. left. exact Hv.
    - intros el given decided Hg Hd. rewrite <- (map_same env env' given), <- (map_same env env' decided).
      + exact (D5 el given decided Hg Hd).
      + intros v Hv. apply (same_theta r env env' Sf). exact (in_concat_nth _ _ _ _ _ Hd Hv).
      + intros v Hv. apply Sp. right. apply in_or_app. right. apply in_or_app. left. exact (in_concat_nth _ _ _ _ _ Hg Hv).
    - rewrite D6. apply map_same, (same_eta r env env' Sf).
    - rewrite D7. apply map_same. intros v Hv. apply Sp. left. exact Hv.
    - rewrite D8. apply map_same. intros v Hv. apply Sp. right. do 2 (apply in_or_app; right). exact Hv.
  Qed.

  Lemma w_C66_closed : parametrised k ->
      np n = all_mx s /\
      forall F integrate env env', respects F -> same_declared n env env' ->
        computed F integrate defaults env shots -> computed F integrate defaults env' shots ->
        (feasible F env n <-> feasible F env' n) /\
        (k_direct k = true -> forall v w, o_V (k_problem k) = [v] -> o_S (k_problem k) = [w] ->
           exists e, nf n = [e] /\ (eval F env e == eval F env' e)%Q).
  Proof.
    intros Pm. apply parametrised_iff in Pm. assert (E := sho_np). rewrite Pm in E. split; [exact E|].
    intros F integrate env env' HF Sd C C'. destruct (w_C66_problem _ _ _ _ _ _ _ _ _ _ T H) as [Ex _].
    assert (S : forall v, In v (flatten r) \/ In v (all_mx s) -> env v = env' v) by (intros v; rewrite <- Ex, <- E; apply Sd).
    destruct (description_exists _ _ _ _ _ _ _ _ _ _ T H env) as [h D].
    assert (D' := describes_shooting_same env env' h S D).
    destruct (simulated_exists _ _ _ _ _ _ _ _ _ _ T H _ _ _ _ D C) as [ends Si].
    destruct (shooting_transcription _ _ _ _ _ _ _ _ _ _ T H _ _ _ _ HF D _ C Si) as [A1 [_ [A2 [A3 _]]]].
    destruct (shooting_transcription _ _ _ _ _ _ _ _ _ _ T H _ _ _ _ HF D' _ C' Si) as [B1 [_ [B2 [B3 _]]]].
    assert (B : bounded k env r <-> bounded k env' r).
    { split; apply bounded_same; intros v I; [apply S | symmetry; apply S]; left; exact I. }
    split; [rewrite A1, B1, B; reflexivity|]. intros Hd v w EV ES. destruct (k_cost_as_sum k) eqn:Es.
    - destruct (A3 Hd eq_refl w ES) as [e [Ee Ve]]. destruct (B3 Hd eq_refl w ES) as [e' [Ee' Ve']].
      rewrite Ee in Ee'. injection Ee' as <-. exists e. split; [exact Ee|]. rewrite Ve, Ve'. reflexivity.
    - destruct (A2 Hd eq_refl v w EV ES) as [e [Ee Ve]]. destruct (B2 Hd eq_refl v w EV ES) as [e' [Ee' Ve']].
      rewrite Ee in Ee'. injection Ee' as <-. exists e. split; [exact Ee|]. rewrite Ve, Ve'. reflexivity.
  Qed.
End Closed.

Lemma w_limited_cart_shot_closed : exists k n s r shots,
    limited_cart = Ok k /\ shootable k /\
    create_optimization_problem (shooting_discretize any_integrator one_name [] "implicit" k) k 1000 = Ok (n, s, (r, shots)) /\
    parametrised k /\ length (np n) = 10 /\ length (nx n) = 16.
Proof.
  exists limited_k, (fst (fst shot_nlp)), (snd (fst shot_nlp)), (fst (snd shot_nlp)), (snd (snd shot_nlp)).
  split; [exact limited_cart_is|]. split; [exact (limited_shootable false)|]. split; [exact shot_nlp_is|].
  split; [left; discriminate|]. split; reflexivity.
Qed.

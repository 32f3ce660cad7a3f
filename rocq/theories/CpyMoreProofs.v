(** Proofs for copies of models: what calls do not change. *)
From Coq Require Import Lia.
From Verif Require Import Base BaseProofs ExprModel SysModel OcpModel CpyModel CpySpec CpyProofs.
Local Open Scope list_scope.
Local Open Scope nat_scope.

Definition ideal_working (v : values) (k : nat) : option nat := option_map ip_model (nth_error (v_probs v) k).
Definition ideal_target (v : values) (c : call) : option nat :=
  match c with
  | CModel i _ | CInclude i _ => Some i
  | CEdit k _ | CMerge k _ => ideal_working v k
  | CNew _ _ | CCopy _ | CDeepCopy _ _ | CProblem _ _ _ _ | CReset _ => None
  end.

Lemma working_shown : forall w k, ideal_working (shown w) k = working w k.
Proof. intros w k. unfold ideal_working, working. rewrite shown_prob. destruct (nth_error (w_probs w) k); reflexivity. Qed.
Lemma target_shown : forall w c, ideal_target (shown w) c = target w c.
Proof. intros w []; try reflexivity; apply working_shown. Qed.

Lemma each_inv : forall (P : values -> Prop) f, (forall j v, P v -> P (fst (f j v))) ->
    forall l v, P v -> P (fst (ideal_each f l v)).
Proof.
  intros P f H. induction l as [|j l IH]; intros v Pv; [exact Pv|]. cbn [ideal_each]. pose proof (H j v Pv) as H'.
  destruct (f j v) as [v' [|e]]; cbn [fst] in *; [apply IH|]; exact H'.
Qed.
Lemma change_other : forall (A : Type) i j (f : A -> A) l, j <> i -> nth_error (change i f l) j = nth_error l j.
Proof.
  intros A i j f l N. rewrite change_at. destruct (Nat.eqb_spec j i); [contradiction|]. destruct (nth_error l j); reflexivity.
Qed.
Lemma snoc_keeps : forall (A : Type) (l : list A) a i b, nth_error l i = Some b -> nth_error (l ++ [a]) i = Some b.
Proof. intros A l a i b E. rewrite nth_error_app1 by (eapply some_lt; exact E). exact E. Qed.

Lemma ideal_model_keeps : forall i c v j, j <> i -> nth_error (v_models (fst (ideal_model i c v))) j = nth_error (v_models v) j.
Proof.
  intros i c v j N. unfold ideal_model. destruct (nth_error (v_models v) i); [|reflexivity]. cbn [fst v_models]. apply change_other, N.
Qed.
Lemma ideal_model_probs : forall i c v, v_probs (fst (ideal_model i c v)) = v_probs v.
Proof. intros i c v. unfold ideal_model. destruct (nth_error (v_models v) i); reflexivity. Qed.
Lemma ideal_prob_keeps : forall k c v j, ideal_working v k <> Some j ->
    nth_error (v_models (fst (ideal_prob k c v))) j = nth_error (v_models v) j.
Proof.
  intros k c v j N. unfold ideal_prob, ideal_working in *. destruct (nth_error (v_probs v) k) as [p|]; [|reflexivity].
  destruct (nth_error (v_models v) (ip_model p)); [|reflexivity]. cbn [fst v_models]. apply change_other.
  intros ->. apply N. reflexivity.
Qed.
Lemma ideal_prob_working : forall k c v k', ideal_working (fst (ideal_prob k c v)) k' = ideal_working v k'.
Proof.
  intros k c v k'. unfold ideal_prob, ideal_working. destruct (nth_error (v_probs v) k) as [p|]; [|reflexivity].
  destruct (nth_error (v_models v) (ip_model p)); [|reflexivity]. cbn [fst v_probs]. rewrite change_at.
  destruct (nth_error (v_probs v) k') as [q|]; [|reflexivity]. cbn [option_map]. destruct (Nat.eqb k' k); reflexivity.
Qed.
Lemma ideal_prob_probs : forall k c v k', k' <> k -> nth_error (v_probs (fst (ideal_prob k c v))) k' = nth_error (v_probs v) k'.
Proof.
  intros k c v k' N. unfold ideal_prob. destruct (nth_error (v_probs v) k) as [p|]; [|reflexivity].
  destruct (nth_error (v_models v) (ip_model p)); [|reflexivity]. cbn [fst v_probs]. apply change_other, N.
Qed.

Lemma ideal_keeps_model : forall same c v i m, nth_error (v_models v) i = Some m -> ideal_target v c <> Some i ->
    nth_error (v_models (fst (ideal_step same c v))) i = Some m.
Proof.
  intros same c v i m E T. destruct c as [t tau|i'|i' f|i' o|i' others|i' x_0 t_0 t_f|k o|k others|k]; cbn [ideal_step ideal_target] in *.
  - apply snoc_keeps, E.
  - destruct (nth_error (v_models v) i'); [apply snoc_keeps|]; exact E.
  - destruct (nth_error (v_models v) i') as [m'|]; [|exact E]. destruct (get_deepcopy f m'); [apply snoc_keeps|]; exact E.
  - rewrite ideal_model_keeps by congruence. exact E.
  - apply (each_inv (fun v => nth_error (v_models v) i = Some m)); [|exact E]. intros j v' E'.
    destruct (nth_error (v_models v') j); [|exact E']. rewrite ideal_model_keeps by congruence. exact E'.
  - destruct (nth_error (v_models v) i') as [m'|]; [|exact E]. cbn [v_models].
    destruct (new_ocp m' x_0 t_0 t_f); apply snoc_keeps, E.
  - rewrite ideal_prob_keeps by exact T. exact E.
  - enough (H : (fun v => nth_error (v_models v) i = Some m /\ ideal_working v k <> Some i) (fst (ideal_each
        (fun (j : nat) (v0 : values) =>
         match nth_error (v_probs v0) j with
         | Some q =>
             match nth_error (v_models v0) (ip_model q) with
             | Some m0 => ideal_prob k (merge_problem (set_o_model m0 (ip_rest q))) v0
             | None => (v0, Raise IndexError)
             end
         | None => (v0, Raise IndexError)
         end) others v))) by exact (proj1 H).
    apply each_inv; [|split; assumption]. intros j v' [E' T'].
    destruct (nth_error (v_probs v') j) as [q|]; [|split; assumption].
    destruct (nth_error (v_models v') (ip_model q)); [|split; assumption].
    rewrite ideal_prob_keeps by exact T'. rewrite ideal_prob_working. split; assumption.
  - destruct (nth_error (v_probs v) k) as [p|]; [|exact E]. destruct (nth_error (v_models v) (ip_user p)); [apply snoc_keeps|]; exact E.
Qed.

Lemma ideal_keeps_prob : forall same c v k p, nth_error (v_probs v) k = Some p -> ~ method_of k c ->
    nth_error (v_probs (fst (ideal_step same c v))) k = Some p.
Proof.
  intros same c v k p E T. destruct c as [t tau|i'|i' f|i' o|i' others|i' x_0 t_0 t_f|k' o|k' others|k']; cbn [ideal_step method_of] in *.
  - exact E.
  - destruct (nth_error (v_models v) i'); exact E.
  - destruct (nth_error (v_models v) i') as [m'|]; [|exact E]. destruct (get_deepcopy f m'); exact E.
  - rewrite ideal_model_probs. exact E.
  - apply (each_inv (fun v => nth_error (v_probs v) k = Some p)); [|exact E]. intros j v' E'.
    destruct (nth_error (v_models v') j); [|exact E']. rewrite ideal_model_probs. exact E'.
  - destruct (nth_error (v_models v) i') as [m'|]; [|exact E].
    destruct (new_ocp m' x_0 t_0 t_f); [apply snoc_keeps|]; exact E.
  - rewrite ideal_prob_probs by (intros ->; apply T; reflexivity). exact E.
  - apply (each_inv (fun v => nth_error (v_probs v) k = Some p)); [|exact E]. intros j v' E'.
    destruct (nth_error (v_probs v') j) as [q|]; [|exact E'].
    destruct (nth_error (v_models v') (ip_model q)); [|exact E'].
    rewrite ideal_prob_probs by (intros ->; apply T; reflexivity). exact E'.
  - destruct (nth_error (v_probs v) k') as [q|]; [|exact E]. destruct (nth_error (v_models v) (ip_user q)); [|exact E].
    cbn [fst v_probs]. rewrite change_other by (intros ->; apply T; reflexivity). exact E.
Qed.

(** The problems keep the models that they were made from. *)
Lemma ideal_keeps_user : forall same c v k, (forall p, nth_error (v_probs v) k = Some p ->
    exists p', nth_error (v_probs (fst (ideal_step same c v))) k = Some p' /\ ip_user p' = ip_user p).
Proof.
  intros same c v k p E.
  assert (Prob : forall c v p, nth_error (v_probs v) k = Some p -> forall k',
    exists p', nth_error (v_probs (fst (ideal_prob k' c v))) k = Some p' /\ ip_user p' = ip_user p).
  { clear. intros c v p E k'. unfold ideal_prob. destruct (nth_error (v_probs v) k') as [q|]; [|eauto].
    destruct (nth_error (v_models v) (ip_model q)); [|eauto]. cbn [fst v_probs]. rewrite change_at, E. cbn [option_map].
    eexists. split; [reflexivity|]. destruct (Nat.eqb k k'); reflexivity. }
  destruct c as [t tau|i'|i' f|i' o|i' others|i' x_0 t_0 t_f|k' o|k' others|k'];
    try (exists p; split; [apply ideal_keeps_prob; [exact E|exact (fun x => x)]|reflexivity]).
  - apply Prob, E.
  - cbn [ideal_step]. apply (each_inv (fun v => exists p', nth_error (v_probs v) k = Some p' /\ ip_user p' = ip_user p)); [|eauto].
    intros j v' [p' [E' U]]. destruct (nth_error (v_probs v') j) as [q|]; [|eauto].
    destruct (nth_error (v_models v') (ip_model q)) as [m|]; [|eauto].
    destruct (Prob (merge_problem (set_o_model m (ip_rest q))) v' p' E' k') as [p2 [E2 U2]]. exists p2. split; [exact E2|congruence].
  - cbn [ideal_step]. destruct (nth_error (v_probs v) k') as [q|]; [|eauto]. destruct (nth_error (v_models v) (ip_user q)); [|eauto].
    cbn [fst v_probs]. rewrite change_at, E. cbn [option_map]. eexists. split; [reflexivity|]. destruct (Nat.eqb k k'); reflexivity.
Qed.

Section Calls.
  Variable same : expr -> expr -> bool.
  Variable rebound : cmd model unit -> model -> option equations.
  Let step := step same rebound.
  Let history := history same rebound.

  Lemma by_value_ok : forall calls c,
      let w := history calls nothing in
      shown w = ideal_history same calls (mkValues [] []) /\
      shown (fst (step c w)) = fst (ideal_step same c (shown w)) /\ snd (step c w) = snd (ideal_step same c (shown w)).
  Proof.
    intros calls c w. destruct (history_matches same rebound calls nothing owned_nothing) as [O S'].
    split; [exact S'|]. destruct (step_matches same rebound c w O) as [_ H]. exact H.
  Qed.

  Lemma reached_step : forall w c, reached same rebound w -> reached same rebound (fst (step c w)).
  Proof.
    intros w c [calls ->]. exists (calls ++ [c]). generalize nothing. induction calls as [|d calls IH]; intros w; [reflexivity|].
    apply (IH (fst (step d w))).
  Qed.

  Lemma model_kept_ok : forall w c i m, reached same rebound w ->
      model_at w i = Some m -> target w c <> Some i -> model_at (fst (step c w)) i = Some m.
  Proof.
    intros w c i m R E T. pose proof (reached_owned _ _ _ R) as O. destruct (step_matches same rebound c w O) as [_ [S' _]].
    fold step in S'. rewrite <- shown_model in *. rewrite S'. apply ideal_keeps_model; [exact E|]. rewrite target_shown. exact T.
  Qed.
  Lemma kept_ok : forall calls w i m, reached same rebound w ->
      model_at w i = Some m -> never_on same rebound i calls w -> model_at (history calls w) i = Some m.
  Proof.
    induction calls as [|c calls IH]; intros w i m R E N; [exact E|]. destruct N as [T N]. cbn.
    apply IH; [apply reached_step, R|apply model_kept_ok; assumption|exact N].
  Qed.

  Lemma problem_kept_ok : forall w c k o, reached same rebound w ->
      problem_at w k = Some o -> ~ concerns w k c -> problem_at (fst (step c w)) k = Some o.
  Proof.
    intros w c k o R E T. pose proof (reached_owned _ _ _ R) as O. destruct (step_matches same rebound c w O) as [_ [S' _]]. fold step in S'.
    unfold problem_at in E. destruct (nth_error (w_probs w) k) as [p|] eqn:Ep; [|discriminate].
    destruct (model_at w (p_model p)) as [m|] eqn:Em; [|discriminate]. injection E as <-.
    assert (Ep' : nth_error (v_probs (shown (fst (step c w)))) k = Some (mkIdeal (p_user p) (p_model p) (p_rest p))).
    { rewrite S'. apply ideal_keeps_prob; [rewrite shown_prob, Ep; reflexivity|]. intros H. apply T. left. exact H. }
    rewrite shown_prob in Ep'. unfold problem_at. destruct (nth_error (w_probs (fst (step c w))) k) as [p'|]; [|discriminate].
    cbn [option_map] in Ep'. injection Ep' as Eu Ew Er. rewrite Ew, Er.
    rewrite (model_kept_ok w c (p_model p) m R Em); [reflexivity|]. intros H. apply T. right. exists (p_model p). split; [exact H|].
    unfold working. rewrite Ep. reflexivity.
  Qed.

  Lemma copy_ok : forall w i m, reached same rebound w -> model_at w i = Some m ->
      exists w', step (CCopy i) w = (w', Ok tt) /\
        let j := length (w_models w) in
        model_at w j = None /\ model_at w' j = Some m /\
        (forall calls, never_on same rebound j calls w' -> model_at (history calls w') j = Some m) /\
        (forall calls, never_on same rebound i calls w' -> model_at (history calls w') i = Some m).
  Proof.
    intros w i m R E. pose proof (reached_owned _ _ _ R) as O. pose proof (reached_step w (CCopy i) R) as R'.
    unfold model_at in E. destruct (nth_error (w_models w) i) as [h|] eqn:Eh; [|discriminate]. injection E as <-.
    destruct (copy_matches w i h O Eh) as [w' [Ec [O' [E' [Len [Ld [Pr S']]]]]]].
    assert (Es : step (CCopy i) w = (w', Ok tt)).
    { unfold step. cbn [CpyModel.step]. unfold cbind. rewrite Ec. reflexivity. }
    rewrite Es in R'. cbn [fst] in R'.
    assert (Ej : model_at w' (length (w_models w)) = Some (load w h)) by (unfold model_at; rewrite E', Ld; reflexivity).
    assert (Ei : model_at w' i = Some (load w h)).
    { rewrite <- shown_model, S'. cbn [v_models]. apply snoc_keeps. rewrite shown_model. unfold model_at. rewrite Eh. reflexivity. }
    exists w'. split; [exact Es|]. cbn zeta. split; [|split; [exact Ej|split]].
    - unfold model_at. rewrite (proj2 (nth_error_None _ _) (le_n _)). reflexivity.
    - intros calls. apply kept_ok; assumption.
    - intros calls. apply kept_ok; assumption.
  Qed.

  Lemma new_problem_ok : forall w i m x_0 t_0 t_f o, reached same rebound w -> model_at w i = Some m ->
      new_ocp m x_0 t_0 t_f = Ok o ->
      exists w', step (CProblem i x_0 t_0 t_f) w = (w', Ok tt) /\
        let k := length (w_probs w) in
        problem_at w' k = Some o /\ made_from w' k = Some i /\ working w' k = Some (length (w_models w)) /\
        model_at w (length (w_models w)) = None.
  Proof.
    intros w i m x_0 t_0 t_f o R E N. pose proof (reached_owned _ _ _ R) as O.
    unfold model_at in E. destruct (nth_error (w_models w) i) as [h|] eqn:Eh; [|discriminate]. injection E as <-.
    destruct (copy_matches w i h O Eh) as [w' [Ec [O' [E' [Len [Ld [Pr S']]]]]]].
    unfold step. cbn [CpyModel.step]. unfold new_problem, cbind. rewrite Ec. unfold lookup. rewrite E', Ld, N.
    eexists. split; [reflexivity|]. cbn zeta.
    assert (Ek : nth_error (w_probs w' ++ [mkProb i (length (w_models w)) o]) (length (w_probs w)) = Some (mkProb i (length (w_models w)) o)).
    { rewrite <- Pr. rewrite nth_error_app2, Nat.sub_diag by lia. reflexivity. }
    unfold problem_at, made_from, working. cbn [set_probs w_probs]. rewrite Ek. cbn [p_user p_model p_rest option_map].
    split; [|split; [reflexivity|split; [reflexivity|]]].
    - unfold model_at. cbn [set_probs w_models]. rewrite E'. f_equal.
      change (load (set_probs _ w') ?x) with (load w' x). rewrite Ld.
      unfold new_ocp in N. destruct (zip_vec _ _ _); [|discriminate]. injection N as <-. reflexivity.
    - unfold model_at. rewrite (proj2 (nth_error_None _ _) (le_n _)). reflexivity.
  Qed.

  (** The methods of a problem do not change the model it was made from. *)
  Lemma never_on_user : forall calls w k i, reached same rebound w -> made_from w k = Some i ->
      Forall (method_of k) calls -> never_on same rebound i calls w.
  Proof.
    induction calls as [|c calls IH]; intros w k i R M F; [exact I|]. inversion F as [|c' calls' Hc Hrest]; subst. split.
    - pose proof (reached_owned _ _ _ R) as O. unfold made_from in M. destruct (nth_error (w_probs w) k) as [p|] eqn:Ep; [|discriminate].
      cbn in M. injection M as <-. pose proof (own_before _ O _ _ Ep) as B.
      destruct c; cbn [method_of] in Hc; try contradiction; subst; cbn [target]; unfold working; rewrite ?Ep; cbn [option_map]; try discriminate;
        intros H; injection H as H; lia.
    - apply (IH _ k); [apply reached_step, R| |exact Hrest]. pose proof (reached_owned _ _ _ R) as O.
      destruct (step_matches same rebound c w O) as [_ [S' _]].
      unfold made_from in M. destruct (nth_error (w_probs w) k) as [p|] eqn:Ep; [|discriminate]. cbn in M. injection M as <-.
      destruct (ideal_keeps_user same c (shown w) k (mkIdeal (p_user p) (p_model p) (p_rest p))) as [p' [E' U]].
      { rewrite shown_prob, Ep. reflexivity. }
      rewrite <- S', shown_prob in E'. unfold made_from.
      destruct (nth_error (w_probs (fst (CpyModel.step same rebound c w))) k) as [p2|] eqn:E2; [|discriminate].
      cbn [option_map] in *. injection E' as <-. cbn in U. congruence.
  Qed.
  Lemma user_kept_ok : forall w k i m calls, reached same rebound w -> made_from w k = Some i -> model_at w i = Some m ->
      Forall (method_of k) calls -> model_at (history calls w) i = Some m.
  Proof. intros w k i m calls R M E F. apply kept_ok; [exact R|exact E|]. eapply never_on_user; eassumption. Qed.

  Lemma reset_ok : forall w k i m o, reached same rebound w -> problem_at w k = Some o -> made_from w k = Some i ->
      model_at w i = Some m ->
      exists w', step (CReset k) w = (w', Ok tt) /\ problem_at w' k = Some (set_o_model m o) /\ made_from w' k = Some i /\
        (forall j m', model_at w j = Some m' -> model_at w' j = Some m') /\
        (forall k' o', k' <> k -> problem_at w k' = Some o' -> problem_at w' k' = Some o').
  Proof.
    intros w k i m o R P M E. pose proof (reached_owned _ _ _ R) as O.
    assert (Fm : forall j m', model_at w j = Some m' -> model_at (fst (step (CReset k) w)) j = Some m').
    { intros j m' Ej. apply model_kept_ok; [exact R|exact Ej|discriminate]. }
    assert (Fp : forall k' o', k' <> k -> problem_at w k' = Some o' -> problem_at (fst (step (CReset k) w)) k' = Some o').
    { intros k' o' N Ek. apply problem_kept_ok; [exact R|exact Ek|]. intros [H|[j [H _]]]; [cbn in H; congruence|discriminate]. }
    unfold problem_at in P. unfold made_from in M. destruct (nth_error (w_probs w) k) as [p|] eqn:Ep; [|discriminate].
    destruct (model_at w (p_model p)) as [m0|]; [|discriminate]. injection P as <-. cbn in M. injection M as <-.
    unfold model_at in E. destruct (nth_error (w_models w) (p_user p)) as [h|] eqn:Eh; [|discriminate]. injection E as <-.
    destruct (copy_matches w (p_user p) h O Eh) as [w' [Ec [O' [E' [Len [Ld [Pr S']]]]]]].
    assert (Es : step (CReset k) w =
        (set_probs (put_at k (mkProb (p_user p) (length (w_models w)) (p_rest p)) (w_probs w')) w', Ok tt)).
    { unfold step. cbn [CpyModel.step]. unfold reset_working_model, cbind, lookup. rewrite Ep, Ec. reflexivity. }
    rewrite Es in Fm, Fp. cbn [fst] in Fm, Fp. eexists. split; [exact Es|].
    assert (Ek : nth_error (put_at k (mkProb (p_user p) (length (w_models w)) (p_rest p)) (w_probs w')) k =
                 Some (mkProb (p_user p) (length (w_models w)) (p_rest p))).
    { rewrite Pr, put_at_at, Nat.eqb_refl by (eapply some_lt; exact Ep). reflexivity. }
    split; [|split; [|split; [exact Fm|exact Fp]]].
    - unfold problem_at. cbn [set_probs w_probs]. rewrite Ek. cbn [p_model p_rest]. unfold model_at. cbn [set_probs w_models]. rewrite E'.
      change (load (set_probs _ w') ?x) with (load w' x). rewrite Ld. destruct (p_rest p). reflexivity.
    - unfold made_from. cbn [set_probs w_probs]. rewrite Ek. reflexivity.
  Qed.
End Calls.

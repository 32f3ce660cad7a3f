(** Proofs about adjoint states. *)
From Coq Require Import String Qabs Lqa Setoid.
From Verif Require Import Base BaseProofs UtilModel UtilProofs ExprModel ExprProofs NlpModel SysModel SysSpec
  SysProofs SysEqProofs SysCtlProofs SysMergeProofs OcpModel OcpProofs DiscModel IndModel IndSpec IndCalcProofs.
Local Open Scope list_scope.
Local Open Scope cmd_scope.

(** ** Running the command *)

Lemma include_state_run : forall var f x_0 m,
    NoDup var -> (forall s, In s var -> ~ In s (map fst (m_ode m))) -> length f = length var ->
    include_state var (Some f) x_0 m =
    (set_ode (m_ode m ++ combine var (map Some f)) (set_x_0 (m_x_0 m ++ x_0) (set_x (m_x m ++ var) m)), Ok tt).
Proof.
  intros var f x_0 m Hnd Hin Hl. unfold include_state; run.
  rewrite include_state_loop_fresh; [|exact Hnd|exact Hin].
  rewrite include_explicit_unfold. unfold alg_added; fields.
  rewrite from_kwargs_eq. rewrite (proj2 (Nat.eqb_eq _ _) Hl).
  match goal with |- context [forallb ?g ?l] => assert (Hall : forallb g l = true) end.
  { apply forallb_forall. intros s Hs. apply (dhas_In _ sym_eqb_eq). unfold dkeys; fields.
    rewrite map_app, map_map. apply in_or_app. right. simpl. rewrite map_id. exact Hs. }
  rewrite Hall. fields. rewrite dupdate_fresh by assumption. rewrite app_nil_r. reflexivity.
Qed.

Lemma on_problem_run : forall c k o r, c (i_problem k) = (o, r) -> on_problem c k = (set_i_problem o k, r).
Proof. intros c k o r H. unfold on_problem. rewrite H. reflexivity. Qed.
Lemma bind_run : forall S A B (m : cmd S A) (f : A -> cmd S B) s s' a,
    m s = (s', Ok a) -> cbind m f s = f a s'.
Proof. intros S A B m f s s' a H. unfold cbind. rewrite H. reflexivity. Qed.
Lemma bind_stop : forall S A B (m : cmd S A) (f : A -> cmd S B) s s' e,
    m s = (s', Raise e) -> cbind m f s = (s', Raise e).
Proof. intros S A B m f s s' e H. unfold cbind. rewrite H. reflexivity. Qed.
Lemma guard_pass : forall S (b : S -> bool) e s, b s = false -> cguard b e s = (s, Ok tt).
Proof. intros S b e s H. unfold cguard. rewrite H. reflexivity. Qed.
Lemma on_model_run : forall (c : cmd model unit) o m r, c (o_model o) = (m, r) -> on_model c o = (set_o_model m o, r).
Proof. intros c o m r H. unfold on_model. rewrite H. reflexivity. Qed.

Definition adjoint_model (n : created) (l_dot : list expr) (m : model) : model :=
  set_ode (m_ode m ++ combine (n_lamb n) (map Some l_dot))
          (set_x_0 (m_x_0 m ++ n_lamb_0 n) (set_x (m_x m ++ n_lamb n) m)).
Lemma ocp_adjoint_state_run : forall n l_dot o,
    NoDup (n_lamb n) -> (forall s, In s (n_lamb n) -> ~ In s (map fst (m_ode (o_model o)))) ->
    length l_dot = length (n_lamb n) ->
    ocp_include_state (n_lamb n) (Some l_dot) None BNone BNone None (n_lamb_0 n) true o =
    (set_o_x_max (o_x_max o ++ pos_inf (length (n_lamb n)))
      (set_o_x_min (o_x_min o ++ neg_inf (length (n_lamb n)))
        (set_o_x_0 (o_x_0 o ++ repeat 0%Q (length (n_lamb n)))
          (set_o_model (adjoint_model n l_dot (o_model o)) o))), Ok tt).
Proof.
  intros n l_dot o Hnd Hf Hl. unfold ocp_include_state.
  rewrite (bind_run _ _ _ _ _ o o tt) by reflexivity. cbn [state_bound].
  rewrite (bind_run _ _ _ _ _ o o tt).
  2:{ apply guard_pass. unfold pos_inf. cbn [snd]. rewrite repeat_length, Nat.eqb_refl. reflexivity. }
  rewrite (bind_run _ _ _ _ _ o o tt).
  2:{ apply guard_pass. unfold neg_inf. cbn [snd]. rewrite repeat_length, Nat.eqb_refl. reflexivity. }
  rewrite (bind_run _ _ _ _ _ o o tt) by reflexivity.
  erewrite (bind_run _ _ _ _ _ o); [|apply on_model_run, include_state_run; assumption].
  fold (adjoint_model n l_dot (o_model o)).
  erewrite (bind_run _ _ _ (cmodify _)); [|reflexivity].
  erewrite (bind_run _ _ _ (cret tt)); [|reflexivity].
  destruct o. reflexivity.
Qed.
Lemma ocp_adjoint_algebraic_run : forall nu g o,
    ocp_include_algebraic nu (Some g) None None None o =
    (set_o_y_max (o_y_max o ++ pos_inf (length nu))
      (set_o_y_min (o_y_min o ++ neg_inf (length nu))
        (set_o_model (set_alg (m_alg (o_model o) ++ g) (set_y (m_y (o_model o) ++ nu) (o_model o)))
          (set_o_y_guess (match o_y_guess o with Some v => Some (v ++ repeat 0%Q (length nu)) | None => None end) o))), Ok tt).
Proof.
  intros nu g o. unfold ocp_include_algebraic.
  rewrite (bind_run _ _ _ _ _ o o tt).
  2:{ apply guard_pass. unfold neg_inf, given. rewrite repeat_length, Nat.eqb_refl. reflexivity. }
  rewrite (bind_run _ _ _ _ _ o o tt).
  2:{ apply guard_pass. unfold pos_inf, given. rewrite repeat_length, Nat.eqb_refl. reflexivity. }
  erewrite (bind_run _ _ _ (cmodify _)); [|reflexivity].
  assert (E : forall o, on_model (include_algebraic nu (Some g)) o =
     (set_o_model (set_alg (m_alg (o_model o) ++ g) (set_y (m_y (o_model o) ++ nu) (o_model o))) o, Ok tt)).
  { intros q. apply on_model_run. unfold include_algebraic, include_equations, include_equations_alg; run. fields.
    rewrite app_nil_r. reflexivity. }
  erewrite (bind_run _ _ _ (on_model _)); [|apply E].
  erewrite (bind_run _ _ _ (cmodify _)); [|reflexivity].
  destruct o as [? ? ? ? ? ? ? ? ? ? ? ? ? ? ? ? ? ? ? ? ? ? ? ? ? ? ? ? ? ? yg ? ? ?]. destruct yg; reflexivity.
Qed.

Definition l_dot_of (dfun : nat -> expr -> expr) (H : expr) (o : ocp) : list expr :=
  map neg (gradient dfun H (m_x (o_model o))).
Definition alg_eq_of (dfun : nat -> expr -> expr) (H : expr) (o : ocp) : list expr :=
  gradient dfun H (m_y (o_model o)).
Definition final_of (dfun : nat -> expr -> expr) (n : created) (v : expr) (o : ocp) : list expr :=
  map (fun sl =>
         EBin OSub (EBin OSub (EVar (snd sl)) (diff dfun (fst sl) v))
                   (esum (map (fun he => EBin OMul (diff dfun (fst sl) (fst he)) (EVar (snd he)))
                              (combine (o_h_final o) (n_eta n)))))
      (combine (m_x (o_model o)) (n_lamb n)).

Lemma half_length : forall A (a b : list A), length a = length b -> (length (a ++ b) / 2 = length a)%nat.
Proof.
  intros A a b H. rewrite app_length, <- H. replace (length a + length a)%nat with (length a * 2)%nat by lia.
  apply Nat.div_mul. lia.
Qed.

Lemma hamiltonian_ok : forall lamb nu o H, hamiltonian lamb nu o = Ok H ->
    exists l a b, o_L o = [l] /\ dot_exprs (map EVar lamb) (ode (o_model o)) = Ok a /\
      dot_exprs (map EVar nu) (m_alg (o_model o)) = Ok b /\ H = EBin OAdd (EBin OAdd l a) b.
Proof.
  intros lamb nu o H E. unfold hamiltonian in E.
  destruct (o_L o) as [|l [|l2 rest]]; try discriminate.
  destruct (dot_exprs _ (ode _)) as [a|]; [|discriminate].
  destruct (dot_exprs _ (m_alg _)) as [b|]; [|discriminate]. injection E as <-. eauto 8.
Qed.

Lemma adjoint_run : forall dfun n k H v,
    in_step (i_model k) -> names_for n (i_problem k) ->
    hamiltonian (n_lamb n) (n_nu n) (i_problem k) = Ok H -> o_V (i_problem k) = [v] ->
    create_adjoint_states dfun n k =
    (set_i_H H (set_i_problem (with_adjoints n (l_dot_of dfun H (i_problem k)) (alg_eq_of dfun H (i_problem k))
                                 (final_of dfun n v (i_problem k)) (i_problem k)) k), Ok tt).
Proof.
  intros dfun n k H v [Hk Hnd] [L1 [L2 [L3 [L4 [L5 L6]]]]] EH EV.
  destruct k as [o H0 dg el cc hc pr]. unfold i_model in *. cbn [i_problem] in *.
  unfold create_adjoint_states.
  erewrite (bind_run _ _ _ (on_problem _)); [|apply on_problem_run; reflexivity].
  cbn [i_problem set_i_problem].
  assert (EH' : hamiltonian (n_lamb n) (n_nu n) (set_o_eta (n_eta n) o) = Ok H) by (rewrite <- EH; destruct o; reflexivity).
  rewrite EH'. unfold i_model. cbn [i_problem].
  erewrite (bind_run _ _ _ (cmodify _)); [|reflexivity]. cbn [set_i_H].
  erewrite (bind_run _ _ _ (on_problem _)).
  2:{ apply on_problem_run, ocp_adjoint_state_run; cbn [i_problem set_i_H set_i_problem]; gfields.
      - exact L5.
      - rewrite Hk. exact L6.
      - unfold gradient. rewrite !map_length. symmetry; exact L1. }
  erewrite (bind_run _ _ _ (on_problem _)); [|apply on_problem_run, on_model_run; reflexivity].
  erewrite (bind_run _ _ _ (on_problem _)); [|apply on_problem_run, ocp_adjoint_algebraic_run].
  cbn [i_problem set_i_H set_i_problem]. gfields.
  erewrite on_problem_run.
  2:{ unfold cset. cbn [i_problem set_i_H set_i_problem]. gfields. unfold adjoint_model. fields.
      unfold x_sys_sym, lamb_sym. fields. rewrite half_length by (symmetry; exact L1).
      rewrite firstn_app, firstn_all, Nat.sub_diag, firstn_O, app_nil_r.
      rewrite skipn_app, skipn_all, Nat.sub_diag, skipn_O. cbn [app]. rewrite EV. cbn [transversality].
      rewrite L1, L4, !Nat.eqb_refl. cbn [andb]. reflexivity. }
  unfold with_adjoints, l_dot_of, alg_eq_of, final_of. cbn [i_problem set_i_H set_i_problem]. gfields. fields.
  unfold neg_inf, pos_inf. rewrite L1, L3. reflexivity.
Qed.

(** ** When it succeeds *)

Lemma complete_length : forall m, in_step m -> (complete m <-> length (ode m) = length (m_x m)).
Proof. intros m H. pose proof (readback_length m H) as R. tauto. Qed.

Lemma dot_exprs_ok : forall a b, length a = length b <-> exists e, dot_exprs a b = Ok e.
Proof.
  intros a b. unfold dot_exprs. destruct (Nat.eqb_spec (length a) (length b)); split; intros H; eauto.
  - contradiction.
  - destruct H; discriminate.
Qed.
Lemma hamiltonian_iff : forall n o, in_step (o_model o) -> names_for n o ->
    (exists H, hamiltonian (n_lamb n) (n_nu n) o = Ok H) <->
    (complete (o_model o) /\ length (m_alg (o_model o)) = length (m_y (o_model o)) /\ length (o_L o) = 1%nat).
Proof.
  intros n o S [L1 [_ [L3 _]]]. rewrite (complete_length _ S). split.
  - intros [H E]. apply hamiltonian_ok in E. destruct E as [l [a [b [El [Ea [Eb _]]]]]].
    assert (Ia := proj2 (dot_exprs_ok _ _) (ex_intro _ a Ea)).
    assert (Ib := proj2 (dot_exprs_ok _ _) (ex_intro _ b Eb)).
    rewrite map_length in Ia, Ib. rewrite El. split; [congruence|]. split; [congruence | reflexivity].
  - intros [C [A L]]. unfold hamiltonian. destruct (o_L o) as [|l [|l2 rest]]; try discriminate.
    destruct (proj1 (dot_exprs_ok (map EVar (n_lamb n)) (ode (o_model o)))) as [a Ea].
    { rewrite map_length. congruence. }
    destruct (proj1 (dot_exprs_ok (map EVar (n_nu n)) (m_alg (o_model o)))) as [b Eb].
    { rewrite map_length. congruence. }
    rewrite Ea, Eb. eauto.
Qed.
Lemma hamiltonian_error : forall n o e, hamiltonian (n_lamb n) (n_nu n) o = Raise e -> e = CasadiError.
Proof.
  intros n o e H. unfold hamiltonian in H. destruct (o_L o) as [|l [|l2 rest]]; try congruence.
  unfold dot_exprs in H. destruct (_ =? _)%nat; [|congruence]. destruct (_ =? _)%nat; congruence.
Qed.

Lemma adjoint_fails_early : forall dfun n k e,
    hamiltonian (n_lamb n) (n_nu n) (i_problem k) = Raise e ->
    create_adjoint_states dfun n k = (set_i_problem (set_o_eta (n_eta n) (i_problem k)) k, Raise e).
Proof.
  intros dfun n k e H. unfold create_adjoint_states.
  erewrite (bind_run _ _ _ (on_problem _)); [|apply on_problem_run; reflexivity].
  cbn [i_problem set_i_problem].
  assert (E : hamiltonian (n_lamb n) (n_nu n) (set_o_eta (n_eta n) (i_problem k)) = Raise e)
    by (rewrite <- H; destruct (i_problem k); reflexivity).
  rewrite E. reflexivity.
Qed.
(** A final cost that is not a scalar is only noticed at the end. *)
Lemma adjoint_fails_late : forall dfun n k, in_step (i_model k) -> names_for n (i_problem k) ->
    length (o_V (i_problem k)) <> 1%nat -> snd (create_adjoint_states dfun n k) <> Ok tt.
Proof.
  intros dfun n k [Hk Hnd] [L1 [L2 [L3 [L4 [L5 L6]]]]] EV.
  destruct (hamiltonian (n_lamb n) (n_nu n) (i_problem k)) as [H|e] eqn:EH.
  2:{ rewrite (adjoint_fails_early _ _ _ _ EH). discriminate. }
  destruct k as [o H0 dg el cc hc pr]. unfold i_model in *. cbn [i_problem] in *.
  unfold create_adjoint_states.
  erewrite (bind_run _ _ _ (on_problem _)); [|apply on_problem_run; reflexivity].
  cbn [i_problem set_i_problem].
  assert (EH' : hamiltonian (n_lamb n) (n_nu n) (set_o_eta (n_eta n) o) = Ok H) by (rewrite <- EH; destruct o; reflexivity).
  rewrite EH'. unfold i_model. cbn [i_problem].
  erewrite (bind_run _ _ _ (cmodify _)); [|reflexivity]. cbn [set_i_H].
  erewrite (bind_run _ _ _ (on_problem _)).
  2:{ apply on_problem_run, ocp_adjoint_state_run; cbn [i_problem set_i_H set_i_problem]; gfields.
      - exact L5.
      - rewrite Hk. exact L6.
      - unfold gradient. rewrite !map_length. symmetry; exact L1. }
  erewrite (bind_run _ _ _ (on_problem _)); [|apply on_problem_run, on_model_run; reflexivity].
  erewrite (bind_run _ _ _ (on_problem _)); [|apply on_problem_run, ocp_adjoint_algebraic_run].
  cbn [i_problem set_i_H set_i_problem]. gfields.
  erewrite on_problem_run.
  2:{ unfold cset. cbn [i_problem set_i_H set_i_problem]. gfields. destruct (o_V o) as [|v [|v2 rest]].
      - cbn [transversality]. reflexivity.
      - exfalso. apply EV. reflexivity.
      - cbn [transversality]. reflexivity. }
  discriminate.
Qed.

(** ** What it computes *)

Lemma esum_dot : forall F env l es,
    (eval F env (esum (map (fun ab => EBin OMul (fst ab) (snd ab)) (combine (map EVar l) es)))
     == pairing F env l es)%Q.
Proof.
  intros F env l. unfold pairing. induction l as [|s l IH]; intros [|e es]; try reflexivity.
  cbn [map combine esum fold_right eval binop_eval fst snd].
  change (fold_right (EBin OAdd) (EConst 0%Q)) with esum. rewrite IH. reflexivity.
Qed.
Lemma dot_value : forall F env l es e, dot_exprs (map EVar l) es = Ok e -> (eval F env e == pairing F env l es)%Q.
Proof.
  intros F env l es e H. unfold dot_exprs in H. destruct (_ =? _)%nat; [|discriminate]. injection H as <-. apply esum_dot.
Qed.
Lemma hamiltonian_value : forall n o H, hamiltonian (n_lamb n) (n_nu n) o = Ok H -> is_hamiltonian n o H.
Proof.
  intros n o H E F env. apply hamiltonian_ok in E. destruct E as [l [a [b [El [Ea [Eb ->]]]]]].
  exists l. split; [exact El|]. cbn [eval binop_eval]. rewrite (dot_value _ _ _ _ _ Ea), (dot_value _ _ _ _ _ Eb). reflexivity.
Qed.
Lemma smooth_esum : forall F dfun env l, Forall (smooth F dfun env) l -> smooth F dfun env (esum l).
Proof.
  intros F dfun env l H. induction H as [|e l He Hl IH]; [exact I|]. cbn [esum fold_right smooth]. split; assumption.
Qed.
Lemma smooth_dot : forall F dfun env l es e, Forall (smooth F dfun env) es ->
    dot_exprs (map EVar l) es = Ok e -> smooth F dfun env e.
Proof.
  intros F dfun env l es e H E. unfold dot_exprs in E. destruct (_ =? _)%nat; [|discriminate]. injection E as <-.
  apply smooth_esum. apply Forall_forall. intros x Hx. apply in_map_iff in Hx. destruct Hx as [[a b] [<- Hab]].
  rewrite Forall_forall in H. pose proof (in_combine_r _ _ _ _ Hab) as Hb. apply in_combine_l, in_map_iff in Hab.
  destruct Hab as [s [<- _]]. cbn [smooth fst snd]. split; [exact I | apply H, Hb].
Qed.
Lemma hamiltonian_smooth : forall F dfun env n o H, smooth_problem F dfun env o ->
    hamiltonian (n_lamb n) (n_nu n) o = Ok H -> smooth F dfun env H.
Proof.
  intros F dfun env n o H [S1 [S2 [S3 _]]] E. apply hamiltonian_ok in E. destruct E as [l [a [b [El [Ea [Eb ->]]]]]].
  cbn [smooth]. rewrite El in S3. inversion S3; subst. repeat split; eauto using smooth_dot.
Qed.

Lemma forall2_map_r : forall A B (R : A -> B -> Prop) (f : A -> B) l, (forall a, In a l -> R a (f a)) -> Forall2 R l (map f l).
Proof.
  intros A B R f l H. induction l as [|a l IH]; constructor; [apply H; left; reflexivity|]. apply IH. intros; apply H; right; assumption.
Qed.
Lemma neg_value : forall F env e, (- eval F env (neg e) == eval F env e)%Q.
Proof. intros. unfold neg. cbn [eval binop_eval]. ring. Qed.
Lemma partial_ext : forall F env e s d d', (d == d')%Q -> partial F env e s d -> partial F env e s d'.
Proof. intros F env e s d d' E. apply derivative_ext; [reflexivity | exact E]. Qed.

Lemma esum_weighted : forall F env dfun s hs eta,
    (eval F env (esum (map (fun he => EBin OMul (diff dfun s (fst he)) (EVar (snd he))) (combine hs eta))) ==
     fold_right Qplus 0 (map (fun p => fst p * env (snd p))
                             (combine (map (fun h => eval F env (diff dfun s h)) hs) eta)))%Q.
Proof.
  intros F env dfun s hs. induction hs as [|h hs IH]; intros [|e eta]; try reflexivity.
  cbn [map combine esum fold_right eval binop_eval fst snd].
  change (fold_right (EBin OAdd) (EConst 0%Q)) with esum. rewrite IH. reflexivity.
Qed.

Lemma adjoint_computed : forall F dfun env n o H v, respects F -> smooth_problem F dfun env o ->
    hamiltonian (n_lamb n) (n_nu n) o = Ok H -> o_V o = [v] ->
    adjoint_values F env n o H (l_dot_of dfun H o) (alg_eq_of dfun H o) (final_of dfun n v o).
Proof.
  intros F dfun env n o H v HF S EH EV. pose proof (hamiltonian_smooth _ _ _ _ _ _ S EH) as SH.
  split; [|split].
  - unfold l_dot_of, gradient. rewrite map_map. apply forall2_map_r. intros s _.
    apply (partial_ext _ _ _ _ (eval F env (diff dfun s H))); [symmetry; apply neg_value|]. apply diff_correct; assumption.
  - unfold alg_eq_of, gradient. apply forall2_map_r. intros s _. apply diff_correct; assumption.
  - unfold final_of. apply forall2_map_r. intros [s l] _. cbn [fst snd].
    destruct S as [_ [_ [_ [SV Sh]]]]. rewrite EV in SV. inversion SV as [|? ? Sv _]; subst.
    exists v, (eval F env (diff dfun s v)), (map (fun h => eval F env (diff dfun s h)) (o_h_final o)).
    split; [exact EV|]. split; [apply diff_correct; assumption|]. split.
    + apply forall2_map_r. intros h Hh. apply diff_correct; [exact HF|]. rewrite Forall_forall in Sh. apply Sh, Hh.
    + cbn [eval binop_eval]. rewrite esum_weighted. reflexivity.
Qed.

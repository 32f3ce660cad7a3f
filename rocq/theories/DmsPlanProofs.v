(** Proofs about plans: points and simulations of the prepared problem and of the problem
    of the user. *)
From Coq Require Import String Lqa.
From Verif Require Import Base BaseProofs UtilModel UtilProofs ExprModel ExprProofs NlpModel NlpSpec NlpProofs SysModel
  SysSpec SysProofs SimModel SimProofs OcpModel OcpSpec OcpMoreProofs LagModel LagSpec LagProofs DiscModel DiscSpec DiscProofs
  ColSpec ColEvalProofs ColMainProofs ColTopProofs DirSpec DirProofs DirColProofs DirTopProofs
  ShoModel ShoSpec ShoShotProofs ShoProofs ShoTopProofs ShoMoreProofs DmsSpec DmsRkProofs DmsProofs.
Local Open Scope list_scope.
Local Open Scope nat_scope.

Lemma last_split : forall (l : list Q) n, length l = n + 1 -> l = firstn n l ++ [nth n l 0%Q].
Proof.
  intros l n L. rewrite <- (firstn_skipn n l) at 1. f_equal.
  assert (L1 : length (skipn n l) = 1) by (rewrite skipn_length, L; lia).
  rewrite <- (Nat.add_0_r n) at 2. rewrite <- nth_skipn_add.
  destruct (skipn n l) as [|z [|? ?]]; try discriminate. reflexivity.
Qed.
Lemma removelast_first : forall (l : list Q) n, length l = n + 1 -> removelast l = firstn n l.
Proof. intros l n L. rewrite removelast_firstn_len, L. f_equal. lia. Qed.
Lemma firstn_Qeq : forall n l l', Forall2 Qeq l l' -> Forall2 Qeq (firstn n l) (firstn n l').
Proof.
  intros n l l' H. revert n. induction H as [|a b l l' Hab H IH]; intros [|n]; try constructor; [exact Hab | apply IH].
Qed.
Lemma nth_Qeq : forall n l l', Forall2 Qeq l l' -> (nth n l 0 == nth n l' 0)%Q.
Proof. intros n l l' H. revert n. induction H as [|a b l l' Hab H IH]; intros [|n]; cbn; try reflexivity; [exact Hab | apply IH]. Qed.
Lemma same_end_trans : forall a b c, same_end a b -> same_end b c -> same_end a c.
Proof.
  assert (T : forall x y z, Forall2 Qeq x y -> Forall2 Qeq y z -> Forall2 Qeq x z).
  { intros x y z H. revert z. induction H as [|a b x y Hab H IH]; intros z Hz; inversion Hz; subst; constructor; [rewrite Hab; assumption | apply IH; assumption]. }
  intros [[x y]|e] [[x' y']|e'] [[x'' y'']|e'']; cbn; try tauto. intros [A B] [C D]. split; eapply T; eassumption.
Qed.

Section Plan.
  Variables (F : nat -> Q -> Q) (upts : list Q) (x_c x_c0 : sym) (o : ocp) (k : method) (h : shooting) (c : nat -> nat -> list Q).
  Hypothesis HF : respects F.
  Hypothesis P : prepared F upts x_c x_c0 o (k_problem k).
  Let m := o_model o.
  Let n := length (m_x m).
  Let par := m_u_par (k_model k).
  Let N := k_elements k.
  Hypothesis Hsym : NoDup (user_symbols o ++ x_c :: x_c0 :: par).
  Hypothesis Hx0 : length (m_x_0 m) = n.
  Hypothesis Hdet : determined m.
  Hypothesis Hfresh : forall e s, In e (written o) -> In s (x_c :: x_c0 :: par) -> ~ mentions e s.
  Hypothesis Lu : forall el, el < N -> length (h_u h el) = length par.
  Hypothesis Lp : length (h_p h) = length (m_p m).
  Hypothesis Lth : forall el, el < N -> length (h_theta h el) = length (m_theta m).
  Hypothesis L0 : length (h_x0 h) = n + 1.
  Hypothesis Hc : steers o N upts h c.

  Lemma plan_step : step_size k = user_step o N.
  Proof.
    destruct (pr_same _ _ _ _ _ _ P) as [_ [E _]]. unfold step_size, user_step.
    injection E as E1 E2 _ _ _. rewrite E1, E2. reflexivity.
  Qed.
  Lemma plan_boundary : forall el, boundary k el = start o N el.
  Proof. intros el. unfold boundary, start. rewrite plan_step. reflexivity. Qed.
  Lemma plan_sizes : length (m_x (k_model k)) = n + 1 /\ m_y (k_model k) = m_y m /\ m_t (k_model k) = m_t m /\ m_tau (k_model k) = m_tau m /\
      m_p (k_model k) = m_p m /\ m_theta (k_model k) = m_theta m.
  Proof.
    destruct (pr_same _ _ _ _ _ _ P) as [E _]. cbv zeta in E. fold m in E. injection E as Ey _ Ep Eth Et Etau.
    destruct (pr_states _ _ _ _ _ _ P) as [Ex _]. fold m in Ex. unfold k_model. rewrite Ex, app_length. cbn [length].
    repeat match goal with |- _ /\ _ => split end; auto.
  Qed.

  Lemma plan_blocks : forall el t tau x y, el < N -> length x = n + 1 -> length y = length (m_y m) ->
      exists e0 T X Y U PP TH X0 ETA VT VX VY UV VP VTH VX0 VETA vc vc0,
      (length T = length VT /\ length X = length VX /\ length Y = length VY /\ length U = length UV /\
       length PP = length VP /\ length TH = length VTH /\ length par = length (h_u h el) /\ length X0 = length VX0) /\
      NoDup ((T ++ X ++ Y ++ U ++ PP ++ TH ++ X0 ++ ETA) ++ x_c :: x_c0 :: par) /\
      point_of k h el t tau x y = assign e0 (T ++ X ++ [x_c] ++ Y ++ PP ++ TH ++ par ++ X0 ++ [x_c0] ++ ETA)
                         (VT ++ VX ++ [vc] ++ VY ++ VP ++ VTH ++ h_u h el ++ VX0 ++ [vc0] ++ VETA) /\
      plan_point o h c el t tau (firstn n x) y = assign e0 (T ++ X ++ Y ++ U ++ PP ++ TH ++ X0 ++ ETA) (VT ++ VX ++ VY ++ UV ++ VP ++ VTH ++ VX0 ++ VETA) /\
      U = m_u m /\ UV = map (fun i => poly (c el i) tau) (seq 0 (length (m_u m))) /\
      (T = [m_t m; m_tau m] /\ VT = [t; tau]) /\ vc = nth n x 0%Q /\ vc0 = nth n (h_x0 h) 0%Q.
  Proof.
    intros el t tau x y Hel Lx Ly. destruct (pr_same _ _ _ _ _ _ P) as [E [E2 _]]. cbv zeta in E. fold m in E. injection E as Ey Eu' Ep Eth Et Etau.
    injection E2 as _ _ Eeta _ _. destruct (pr_states _ _ _ _ _ _ P) as [Ex [Ex0 _]]. fold m in Ex, Ex0.
    pose proof (Lth el Hel) as Lthe. pose proof (Lu el Hel) as Lue.
    exists (fun _ => 0%Q), [m_t m; m_tau m], (m_x m), (m_y m), (m_u m), (m_p m), (m_theta m), (m_x_0 m), (o_eta o).
    exists [t; tau], (firstn n x), y.
    exists (map (fun i => poly (c el i) tau) (seq 0 (length (m_u m)))), (h_p h), (h_theta h el), (firstn (length (m_x m)) (h_x0 h)), (h_eta h).
    exists (nth n x 0%Q), (nth n (h_x0 h) 0%Q).
    split.
    { rewrite !map_length, !seq_length, !firstn_length, L0, Lx. fold n. repeat match goal with |- _ /\ _ => split end; auto; try lia. }
    split; [exact Hsym|]. split.
    { unfold point_of, problem_symbols, k_model. fold m. rewrite Ey, Ep, Eth, Et, Etau, Eeta, Ex, Ex0.
      rewrite (last_split x n Lx) at 1. rewrite (last_split (h_x0 h) n L0) at 1. fold (k_model k). fold par. fold n. rewrite <- !app_assoc. reflexivity. }
    split; [reflexivity|]. split; [reflexivity|]. split; [reflexivity|]. split; [split; reflexivity|]. split; reflexivity.
  Qed.
  Lemma plan_values : forall el t tau x y, el < N -> length x = n + 1 -> length y = length (m_y m) ->
      let env := point_of k h el t tau x y in
      env (m_tau m) = tau /\ map env par = h_u h el /\ env x_c = nth n x 0%Q /\ env x_c0 = nth n (h_x0 h) 0%Q.
  Proof.
    intros el t tau x y Hel Lx Ly env. destruct (plan_blocks el t tau x y Hel Lx Ly) as (e0 & T & X & Y & U & PP & TH & X0 & ETA & VT & VX & VY & UV & VP & VTH & VX0 & VETA & vc & vc0 & L & ND & E & _ & _ & _ & [ET EVT] & Evc & Evc0).
    destruct L as [L1 [L2 [L3 [L4 [L5 [L6 [L7 L8]]]]]]]. unfold env. rewrite E. split; [|split; [|split]].
    - pose proof (big_T e0 T X Y U PP TH par X0 ETA x_c x_c0 VT VX VY VP VTH (h_u h el) VX0 VETA vc vc0 L1 L2 L3 L5 L6 L7 L8 ND) as B.
      rewrite ET, EVT in B |- *. cbn [map] in B. injection B as _ B. exact B.
    - apply (big_par e0 T X Y U PP TH par X0 ETA x_c x_c0 VT VX VY VP VTH (h_u h el) VX0 VETA vc vc0); assumption.
    - rewrite <- Evc. apply (big_xc e0 T X Y U PP TH par X0 ETA x_c x_c0 VT VX VY VP VTH (h_u h el) VX0 VETA vc vc0); assumption.
    - rewrite <- Evc0. apply (big_xc0 e0 T X Y U PP TH par X0 ETA x_c x_c0 VT VX VY VP VTH (h_u h el) VX0 VETA vc vc0); assumption.
  Qed.
  Lemma plan_agree : forall el t tau x y s, el < N -> length x = n + 1 -> length y = length (m_y m) -> ~ In s (x_c :: x_c0 :: par) ->
      with_controls m (point_of k h el t tau x y) (c el) s = plan_point o h c el t tau (firstn n x) y s.
  Proof.
    intros el t tau x y s Hel Lx Ly Hs. unfold with_controls. rewrite (proj1 (plan_values el t tau x y Hel Lx Ly)).
    destruct (plan_blocks el t tau x y Hel Lx Ly) as (e0 & T & X & Y & U & PP & TH & X0 & ETA & VT & VX & VY & UV & VP & VTH & VX0 & VETA & vc & vc0 & L & ND & E & E' & EU & EUV & _).
    destruct L as [L1 [L2 [L3 [L4 [L5 [L6 [L7 L8]]]]]]]. subst U UV. rewrite E, E'.
    apply (big_agrees e0 T X Y (m_u m) PP TH par X0 ETA x_c x_c0 VT VX VY (map (fun i => poly (c el i) tau) (seq 0 (length (m_u m)))) VP VTH (h_u h el) VX0 VETA vc vc0); assumption.
  Qed.
  Lemma plan_value : forall e e' el t tau x y, el < N -> length x = n + 1 -> length y = length (m_y m) -> In e (written o) ->
      steered F m upts par e e' -> (eval F (point_of k h el t tau x y) e' == eval F (plan_point o h c el t tau (firstn n x) y) e)%Q.
  Proof.
    intros e e' el t tau x y Hel Lx Ly Hw S. rewrite (S (point_of k h el t tau x y) (c el)).
    - rewrite (eval_ext F _ (plan_point o h c el t tau (firstn n x) y) e); [reflexivity|]. intros s Hs.
      apply plan_agree; try assumption. intros I. exact (Hfresh e s Hw I Hs).
    - destruct (plan_values el t tau x y Hel Lx Ly) as [_ [E _]]. rewrite E. apply Hc, Hel.
  Qed.

  (** Points with equal values. *)
  Lemma point_Qeq : forall el t t' tau tau' x x' y y', (t == t')%Q -> (tau == tau')%Q -> Forall2 Qeq x x' -> Forall2 Qeq y y' ->
      forall e, (eval F (point_of k h el t tau x y) e == eval F (point_of k h el t' tau' x' y') e)%Q.
  Proof.
    intros el t t' tau tau' x x' y y' Ht Htau Hx Hy e. apply eval_ext_Qeq; [exact HF|]. intros s _. apply assign_Qeq.
    constructor; [exact Ht|]. constructor; [exact Htau|]. apply Forall2_app; [exact Hx|]. apply Forall2_app; [exact Hy | apply Forall2_Qeq_refl].
  Qed.
  Lemma zero_iff : forall es es' el t tau x y, el < N -> length x = n + 1 -> length y = length (m_y m) -> (forall e, In e es -> In e (written o)) ->
      Forall2 (steered F m upts par) es es' ->
      (all_zero F es' (point_of k h el t tau x y) <-> all_zero F es (plan_point o h c el t tau (firstn n x) y)).
  Proof.
    intros es es' el t tau x y Hel Lx Ly Hw S. unfold all_zero. induction S as [|e e' es es' He S IH]; [split; intros _ a []|].
    assert (IH' := IH (fun a Ha => Hw a (or_intror Ha))). clear IH.
    pose proof (plan_value e e' el t tau x y Hel Lx Ly (Hw e (or_introl eq_refl)) He) as V. split; intros H a [<-|Ha].
    - rewrite <- V. apply H. left. reflexivity.
    - apply (proj1 IH'); [intros b Hb; apply H; right; exact Hb | exact Ha].
    - rewrite V. apply H. left. reflexivity.
    - apply (proj2 IH'); [intros b Hb; apply H; right; exact Hb | exact Ha].
  Qed.

  (** ** The equations *)

  Definition user_ode : list expr := flat_map (fun se => match snd se with Some e => [e] | None => [] end) (m_ode m).
  Lemma user_ode_length : length user_ode = n.
  Proof.
    destruct Hdet as [E A]. unfold n. rewrite <- E, map_length. unfold user_ode. clear E.
    induction (m_ode m) as [|[s oe] l IH]; [reflexivity|]. destruct (A s oe (or_introl eq_refl)) as [e ->]. cbn [flat_map snd app length].
    rewrite IH; [reflexivity|]. intros s' oe' Hi. apply (A s' oe'). right. exact Hi.
  Qed.
  Lemma ode_steered : forall l, o_L o = [l] -> Forall2 (steered F m upts par) (user_ode ++ [l]) (ode (k_model k)).
  Proof.
    intros l El. destruct (pr_dynamics _ _ _ _ _ _ P) as [l' [El' D]]. rewrite El in El'. injection El' as <-. fold m in D.
    unfold ode, k_model, user_ode, dvals.
    assert (G : forall a b, Forall2 (fun old new : sym * option expr => fst new = fst old /\
                 match snd old, snd new with
                 | Some e, Some e' => steered F m upts (m_u_par (o_model (k_problem k))) e e'
                 | None, None => True
                 | _, _ => False
                 end) a b -> Forall2 (steered F m upts par) (flat_map (fun se => match snd se with Some e => [e] | None => [] end) a)
                   (flat_map (fun oe => match oe with Some e => [e] | None => [] end) (map snd b))).
    { intros a b H. induction H as [|[s oe] [s' oe'] a b [_ H1] H IH]; [constructor|]. cbn [flat_map map snd] in *.
      destruct oe as [e|]; destruct oe' as [e'|]; try contradiction; cbn [app]; [constructor; [exact H1 | exact IH] | exact IH]. }
    pose proof (G _ _ D) as R. rewrite flat_map_app in R. exact R.
  Qed.
  Lemma alg_steered : Forall2 (steered F m upts par) (match m_y m with [] => [] | _ => m_alg m end) (match m_y (k_model k) with [] => [] | _ => m_alg (k_model k) end).
  Proof.
    destruct plan_sizes as [_ [Ey _]]. rewrite Ey. destruct (m_y m); [constructor|]. destruct (pr_constraints _ _ _ _ _ _ P) as [A _]. exact A.
  Qed.
  Lemma written_ode : forall l e, o_L o = [l] -> In e (user_ode ++ [l]) -> In e (written o).
  Proof.
    intros l e El H. unfold written. rewrite El. apply in_app_iff in H. destruct H as [H|[<-|[]]]; [|left; reflexivity].
    right. rewrite !in_app_iff. do 9 right. exact H.
  Qed.
  Lemma written_alg : forall e, In e (match m_y m with [] => [] | _ => m_alg m end) -> In e (written o).
  Proof.
    intros e H. unfold written. rewrite !in_app_iff. do 8 right. left. destruct (m_y m); [destruct H | exact H].
  Qed.

  (** ** The system of an element *)

  Section Element.
    Variable el : nat.
    Hypothesis Hel : el < N.
    Let d := element_system k el.
    Let syms := m_t (k_model k) :: m_x (k_model k) ++ m_y (k_model k) ++ m_p (k_model k) ++ m_theta (k_model k) ++ par.
    Let pv := h_p h ++ h_theta h el ++ h_u h el.
    Hypothesis Hclosed : closed_in syms (d_ode d ++ d_alg d).
    Hypothesis Hprob : NoDup (problem_symbols k).
    Notation fieldof es := (field F (m_t (k_model k)) (m_x (k_model k)) (m_y (k_model k)) (m_p (k_model k) ++ m_theta (k_model k) ++ par) pv es).
    Let sub (e : expr) : expr :=
      substitute e [m_tau (k_model k)] [EBin ODiv (EBin OSub (EVar (m_t (k_model k))) (EConst (boundary k el))) (EConst (boundary k (S el) - boundary k el)%Q)].

    Lemma field_value : forall e e' t t' x x' y y', In e (written o) -> steered F m upts par e e' ->
        closed_in syms [sub e'] -> (t == t')%Q -> Forall2 Qeq x x' -> Forall2 Qeq y y' -> length x = n + 1 -> length y = length (m_y m) ->
        (eval F (assign (fun _ => 0%Q) syms (t :: x ++ y ++ pv)) (sub e') == eval F (moment o N h c el t' (removelast x') y') e)%Q.
    Proof.
      intros e e' t t' x x' y y' Hw St0 C Ht Hx Hy Lx Ly. unfold moment.
      assert (Lx' : length x' = n + 1) by (rewrite <- (Forall2_length_Q _ _ Hx); exact Lx).
      assert (Ly' : length y' = length (m_y m)) by (rewrite <- (Forall2_length_Q _ _ Hy); exact Ly).
      rewrite (removelast_first x' n Lx'), <- (plan_value e e' el t' _ x' y' Hel Lx' Ly' Hw St0).
      unfold sub. rewrite eval_substitute. apply eval_ext_Qeq; [exact HF|]. intros s Hs. unfold env_subst. cbn [subst_lookup].
      destruct plan_sizes as [Sx [Sy [St [Stau [Sp Sth]]]]]. rewrite Stau.
      destruct (Nat.eqb_spec s (m_tau m)) as [->|Ne].
      - destruct (plan_values el t' ((t' - start o N el) / (start o N (S el) - start o N el))%Q x' y' Hel Lx' Ly') as [-> _].
        cbn [eval binop_eval]. rewrite !plan_boundary. unfold syms. cbn [assign]. destruct (Nat.eq_dec (m_t (k_model k)) (m_t (k_model k))) as [_|X]; [|contradiction X; reflexivity].
        rewrite Ht. reflexivity.
      - assert (Is : In s syms).
        { apply (C (sub e') s); [left; reflexivity|]. unfold mentions, sub. apply symbols_kept; [exact Hs | rewrite Stau; exact Ne]. }
        cbn [eval]. unfold point_of, problem_symbols. fold par. unfold syms in Is |- *.
        destruct Is as [<-|Is].
        + cbn [assign]. destruct (Nat.eq_dec (m_t (k_model k)) (m_t (k_model k))) as [_|X]; [exact Ht | contradiction X; reflexivity].
        + assert (Nt : s <> m_t (k_model k)).
          { intros ->. unfold problem_symbols in Hprob. inversion Hprob as [|? ? A _]; subst. apply A. right. rewrite !in_app_iff in *. tauto. }
          cbn [assign]. destruct (Nat.eq_dec s (m_t (k_model k))) as [|_]; [contradiction|]. destruct (Nat.eq_dec s (m_tau (k_model k))) as [X|_]; [rewrite Stau in X; contradiction|].
          assert (Hpv : length (m_p (k_model k) ++ m_theta (k_model k) ++ par) = length pv).
          { unfold pv. rewrite !app_length, Sp, Sth, Lp, (Lth el Hel), (Lu el Hel). reflexivity. }
          set (A := m_x (k_model k) ++ m_y (k_model k) ++ m_p (k_model k) ++ m_theta (k_model k) ++ par) in *.
          assert (LA : length A = length (x ++ y ++ pv)).
          { unfold A. rewrite 2 app_length, Hpv, 2 app_length, Lx, Ly, Sx, Sy. reflexivity. }
          assert (LA' : length A = length (x' ++ y' ++ pv)).
          { unfold A. rewrite 2 app_length, Hpv, 2 app_length, Lx', Ly', Sx, Sy. reflexivity. }
          transitivity (assign (fun _ => 0%Q) A (x' ++ y' ++ pv) s).
          * apply assign_Qeq. apply Forall2_app; [exact Hx|]. apply Forall2_app; [exact Hy | apply Forall2_Qeq_refl].
          * assert (E1 : m_x (k_model k) ++ m_y (k_model k) ++ m_p (k_model k) ++ m_theta (k_model k) ++ par ++ m_x_0 (k_model k) ++ o_eta (k_problem k) =
                         A ++ m_x_0 (k_model k) ++ o_eta (k_problem k)) by (unfold A; rewrite <- !app_assoc; reflexivity).
            assert (E2 : x' ++ y' ++ h_p h ++ h_theta h el ++ h_u h el ++ h_x0 h ++ h_eta h = (x' ++ y' ++ pv) ++ h_x0 h ++ h_eta h)
              by (unfold pv; rewrite <- !app_assoc; reflexivity).
            rewrite E1, E2, assign_in_app by exact LA'. destruct (in_dec Nat.eq_dec s A) as [_|X]; [reflexivity | contradiction].
    Qed.

    Lemma sub_closed : forall es e, incl (map sub es) (d_ode d ++ d_alg d) -> In e es -> closed_in syms [sub e].
    Proof. intros es e Hi He a s [<-|[]] Hs. apply (Hclosed (sub e) s); [apply Hi, in_map, He | exact Hs]. Qed.
    Lemma fields_same : forall us es, (forall e, In e us -> In e (written o)) -> Forall2 (steered F m upts par) us es ->
        incl (map sub es) (d_ode d ++ d_alg d) ->
        same_field (n + 1) (length (m_y m)) (fieldof (map sub es)) (fun t x y => map (eval F (moment o N h c el t (removelast x) y)) us).
    Proof.
      intros us es Hw S Hi t t' x x' y y' Ht Hx Hy Lx Ly. unfold field. fold syms.
      induction S as [|e e' us es He S IH]; [constructor|]. cbn [map]. constructor.
      - apply field_value; try assumption; [apply Hw; left; reflexivity|]. apply (sub_closed (e' :: es)); [exact Hi | left; reflexivity].
      - apply IH; [intros a Ha; apply Hw; right; exact Ha | intros a Ha; apply Hi; right; exact Ha].
    Qed.

    Section Flow.
      Variables (flow : flow_of_fields) (total : integral_along) (l : expr) (integrate : icall -> res (list Q * list Q))
        (defaults : options) (ty : string) (label : nat -> nat -> string).
      Hypothesis Hflow : solution_method flow total.
      Hypothesis El : o_L o = [l].
      Hypothesis Hint : integrates F integrate defaults (plugin_of ty (length (m_y m))) (guess_of k) flow.
      Hypothesis Halg : length (m_alg (k_model k)) = length (m_y (k_model k)).
      Hypothesis Lx : length (h_x h el) = n + 1.
      Hypothesis Hlen : Qeq_bool (boundary k (S el)) (boundary k el) = false.
      Hypothesis Htau : dae_depends_on d [m_tau (k_model k)] = false.
      Hypothesis Hplug : exists plugin, select_plugin d ty = Ok plugin.

      Lemma alg_length : length (d_alg d) = length (m_y m).
      Proof.
        destruct plan_sizes as [_ [Ey _]]. unfold d, element_system. cbn [d_alg]. rewrite map_length, <- Ey.
        destruct (m_y (k_model k)) as [|y ys] eqn:E; [reflexivity | exact Halg].
      Qed.

      Lemma simulation_is_flow : simulation integrate defaults ty label k h el =
          flow (length (m_y m)) (fieldof (d_ode d)) (fieldof (d_alg d)) (h_x h el) (boundary k el) (boundary k (S el)).
      Proof.
        destruct Hplug as [plugin Hp]. pose proof (plugin_selected _ _ _ Hp) as Ep. rewrite alg_length in Ep.
        unfold simulation, dae_simulate. rewrite Hlen. fold d.
        assert (Ed : d_tau d = Some (m_tau (k_model k))) by reflexivity. rewrite Ed, Htau.
        set (user := [("name"%string, OptStr (label el 0))]).
        assert (Ho : forall key, dget String.eqb key (snd (integrator_options defaults (simulation_options (boundary k (S el)) (boundary k el) user))) =
            if String.eqb key "tf" then Some (OptNum (boundary k (S el))) else if String.eqb key "t0" then Some (OptNum (boundary k el)) else dget String.eqb key defaults).
        { intros key. unfold integrator_options, simulation_options, user, dupdate. cbn [snd fst fold_left]. rewrite dget_defaults.
          change (dset String.eqb "name"%string (OptStr (label el 0)) [("tf"%string, OptNum (boundary k (S el))); ("t0"%string, OptNum (boundary k el))]) with
            [("tf"%string, OptNum (boundary k (S el))); ("t0"%string, OptNum (boundary k el)); ("name"%string, OptStr (label el 0))].
          cbn [filter fst String.eqb Ascii.eqb Bool.eqb negb dget].
          destruct (String.eqb key "tf"); [reflexivity|]. destruct (String.eqb key "t0"); reflexivity. }
        destruct (integrator_options defaults _) as [name opts] eqn:Eo. cbn [snd] in Ho. rewrite Hp, Ep.
        destruct plan_sizes as [Sx [Sy [St [Stau [Sp Sth]]]]].
        assert (Ez : (if dae_is_dae d then o_y_guess (k_problem k) else None) = guess_of k).
        { unfold dae_is_dae, dae_is_ode, guess_of. rewrite alg_length, <- Sy. destruct (m_y (k_model k)); reflexivity. }
        rewrite Ez, <- Sy. unfold d, element_system. cbn [d_ode d_alg].
        pose proof Hint as Hint'. rewrite <- Sy in Hint'. apply Hint'.
        - unfold problem_symbols in Hprob. fold par.
          assert (X : forall A (t u : A) a b, NoDup (t :: u :: a ++ b) -> NoDup (t :: a)).
          { intros A t u a b Hn. inversion Hn as [|? ? A1 A2]; subst. inversion A2 as [|? ? A3 A4]; subst.
            constructor; [intros I; apply A1; right; apply in_app_iff; left; exact I | apply (NoDup_app_l _ _ _ A4)]. }
          apply (X _ _ (m_tau (k_model k)) _ (m_x_0 (k_model k) ++ o_eta (k_problem k))).
          rewrite <- !app_assoc. exact Hprob.
        - exact Hclosed.
        - rewrite map_length, Sx. pose proof (Forall2_len _ _ _ _ _ (ode_steered l El)) as L. rewrite app_length, user_ode_length in L. cbn [length] in L. lia.
        - rewrite <- Sy in *. pose proof alg_length as L. unfold d, element_system in L. cbn [d_alg] in L. rewrite L. congruence.
        - rewrite Lx, Sx. reflexivity.
        - unfold pv. rewrite !app_length, Sp, Sth, Lp, (Lth el Hel), (Lu el Hel). reflexivity.
        - rewrite Ho. reflexivity.
        - rewrite Ho. reflexivity.
        - intros key K1 K2. rewrite Ho. destruct (String.eqb_spec key "tf"); [contradiction|]. destruct (String.eqb_spec key "t0"); [contradiction | reflexivity].
      Qed.

      Lemma flow_is_driven : same_end (simulation integrate defaults ty label k h el)
          (match driven F flow o N h c el with
           | Ok (x, y) => Ok (x ++ [(nth n (h_x h el) 0 + spent F total o N h c l el)%Q], y)
           | Raise e => Raise e
           end).
      Proof.
        rewrite simulation_is_flow. unfold driven, spent. fold m.
        assert (Sq : forall t x y, length (rates F o N h c el t x y) = n) by (intros t x y; unfold rates; rewrite map_length; apply user_ode_length).
        assert (Ln : length (state o h el) = n) by (unfold state; rewrite firstn_length, Lx; fold m; fold n; lia).
        eapply same_end_trans.
        2: { apply (sm_integral _ _ Hflow). rewrite Ln. intros t x y _ _. apply Sq. }
        rewrite !plan_boundary. unfold state. fold m. fold n. rewrite <- (last_split (h_x h el) n Lx).
        apply (sm_values _ _ Hflow); rewrite Lx.
        - intros t x y Hx _. unfold field. rewrite map_length. unfold d, element_system. cbn [d_ode]. rewrite map_length.
          pose proof (Forall2_len _ _ _ _ _ (ode_steered l El)) as L. rewrite app_length, user_ode_length in L. cbn [length] in L. lia.
        - intros t t' x x' y y' Ht Hx Hy L1 L2.
          pose proof (fields_same (user_ode ++ [l]) (ode (k_model k)) (fun e He => written_ode l e El He) (ode_steered l El)) as Fs.
          assert (I : incl (map sub (ode (k_model k))) (d_ode d ++ d_alg d)) by (intros a Ha; apply in_app_iff; left; exact Ha).
          specialize (Fs I t t' x x' y y' Ht Hx Hy L1 L2). cbv beta in Fs. rewrite map_app in Fs. exact Fs.
        - intros t t' x x' y y' Ht Hx Hy L1 L2.
          pose proof (fields_same _ _ written_alg alg_steered) as Fs.
          assert (I : incl (map sub (match m_y (k_model k) with [] => [] | _ => m_alg (k_model k) end)) (d_ode d ++ d_alg d)) by (intros a Ha; apply in_app_iff; right; exact Ha).
          exact (Fs I t t' x x' y y' Ht Hx Hy L1 L2).
      Qed.
    End Flow.
  End Element.
End Plan.

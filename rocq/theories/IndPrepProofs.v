(** Proofs about the construction and the preparation of the indirect method. *)
From Coq Require Import String Qabs Qminmax Lqa Setoid.
From Verif Require Import Base BaseProofs ExprModel ExprProofs NlpModel SysModel SysSpec SysProofs SysCtlProofs
  OcpModel OcpSpec OcpProofs OcpMoreProofs DiscModel StoSpec StoBasisProofs IndModel IndSpec IndCalcProofs IndProofs
  IndQuadProofs.
Local Open Scope list_scope.
Local Open Scope cmd_scope.

(** ** Construction *)

Lemma write_at_repeat : forall A (a : A) i l, i < length l ->
    write_at i a (repeat a i ++ skipn i l) = Ok (repeat a (S i) ++ skipn (S i) l).
Proof.
  intros A a i l H. unfold write_at.
  assert (L : length (repeat a i ++ skipn i l) = length l) by (rewrite app_length, repeat_length, skipn_length; lia).
  rewrite L. rewrite (proj2 (Nat.ltb_lt _ _) H). f_equal.
  rewrite firstn_app, repeat_length, Nat.sub_diag, firstn_O, app_nil_r.
  rewrite firstn_all2 by (rewrite repeat_length; lia).
  rewrite skipn_app, repeat_length. rewrite skipn_all2 by (rewrite repeat_length; lia).
  replace (S i - i) with 1 by lia. cbn [app].
  change (a :: skipn 1 (skipn i l)) with ([a] ++ skipn 1 (skipn i l)). rewrite app_assoc.
  f_equal.
  - replace (S i) with (i + 1) by lia. rewrite repeat_app. reflexivity.
  - clear L H. revert i. induction l as [|b l IH]; intros [|i]; try reflexivity. cbn [skipn]. exact (IH i).
Qed.
Definition lens (get : ocp -> list ext) (set : list ext -> ocp -> ocp) : Prop :=
  (forall v o, get (set v o) = v) /\ (forall v w o, set v (set w o) = set v o) /\ (forall o, set (get o) o = o).
Lemma free_bounds_run : forall lo hi set_lo set_hi n i o, lens lo set_lo -> lens hi set_hi ->
    (forall v o, hi (set_lo v o) = hi o) -> (forall v o, lo (set_hi v o) = lo o) ->
    (forall v w o, set_lo v (set_hi w o) = set_hi w (set_lo v o)) ->
    length (lo o) = i + n -> length (hi o) = i + n ->
    free_bounds lo hi set_lo set_hi (seq i n)
      (set_hi (repeat PInf i ++ skipn i (hi o)) (set_lo (repeat NInf i ++ skipn i (lo o)) o)) =
    (set_hi (repeat PInf (i + n)) (set_lo (repeat NInf (i + n)) o), Ok tt).
Proof.
  intros lo hi set_lo set_hi n. induction n as [|n IH]; intros i o Hlo Hhi H1 H2 H3 L1 L2.
  - cbn [seq free_bounds]. rewrite !skipn_all2 by lia. rewrite !app_nil_r, Nat.add_0_r. reflexivity.
  - destruct Hlo as [A1 [A2 A3]], Hhi as [B1 [B2 B3]]. cbn [seq free_bounds].
    erewrite bind_run.
    2:{ unfold cset. rewrite H2, A1, write_at_repeat by lia. reflexivity. }
    erewrite bind_run.
    2:{ unfold cset. rewrite H1, B1, write_at_repeat by lia. reflexivity. }
    rewrite H3, A2, B2. replace (i + S n) with (S i + n) by lia.
    apply IH; try (split; [|split]; assumption); try assumption; lia.
Qed.
Lemma check_bounds_run : forall o,
    length (o_x_min o) = length (m_x (o_model o)) -> length (o_x_max o) = length (m_x (o_model o)) ->
    length (o_y_min o) = length (m_y (o_model o)) -> length (o_y_max o) = length (m_y (o_model o)) ->
    check_bounds o = (without_path_bounds o, Ok tt).
Proof.
  intros o L1 L2 L3 L4. unfold check_bounds.
  pose proof (free_bounds_run o_x_min o_x_max set_o_x_min set_o_x_max (length (m_x (o_model o))) 0 o) as X.
  cbn [repeat skipn app Nat.add] in X.
  assert (E1 : set_o_x_max (o_x_max o) (set_o_x_min (o_x_min o) o) = o) by (destruct o; reflexivity).
  rewrite E1 in X.
  erewrite bind_run.
  2:{ apply X; try (split; [|split]); try (intros; reflexivity); try (intros []; reflexivity); assumption. }
  set (o1 := set_o_x_max _ _).
  pose proof (free_bounds_run o_y_min o_y_max set_o_y_min set_o_y_max (length (m_y (o_model o))) 0 o1) as Y.
  cbn [repeat skipn app Nat.add] in Y.
  assert (E2 : set_o_y_max (o_y_max o1) (set_o_y_min (o_y_min o1) o1) = o1) by (destruct o; reflexivity).
  rewrite E2 in Y.
  assert (Em : o_model o1 = o_model o) by (destruct o; reflexivity). rewrite Em.
  rewrite Y; try (split; [|split]); try (intros; reflexivity); try (intros []; reflexivity).
  - assumption.
  - assumption.
Qed.

Lemma construct_ok : forall degree elements create_cost o, ready_to_solve o ->
    new_indirect degree elements None create_cost o =
    (without_path_bounds o,
     Ok (mkIndirect (without_path_bounds o) (EConst 0%Q) degree elements create_cost false false)).
Proof.
  intros degree elements create_cost o [_ [_ [[A1 [A2 _]] [[A3 A4] _]]]]. unfold new_indirect.
  erewrite bind_run; [|apply guard_pass; reflexivity].
  erewrite bind_run; [|apply check_bounds_run; assumption]. reflexivity.
Qed.
Lemma construct_degree_control : forall degree elements d create_cost o,
    new_indirect degree elements (Some d) create_cost o = (o, Raise ValueError).
Proof. intros. reflexivity. Qed.

(** ** Preparation *)

Lemma on_problem_ok : forall c k k', on_problem c k = (k', Ok tt) ->
    exists o, c (i_problem k) = (o, Ok tt) /\ k' = set_i_problem o k.
Proof.
  intros c k k' H. unfold on_problem in H. destruct (c (i_problem k)) as [o r] eqn:E. injection H as <- ->. eauto.
Qed.

Lemma adjoint_success : forall dfun n k k', in_step (i_model k) -> names_for n (i_problem k) ->
    create_adjoint_states dfun n k = (k', Ok tt) ->
    exists H v, hamiltonian (n_lamb n) (n_nu n) (i_problem k) = Ok H /\ o_V (i_problem k) = [v] /\
      k' = set_i_H H (set_i_problem (with_adjoints n (l_dot_of dfun H (i_problem k)) (alg_eq_of dfun H (i_problem k))
                                 (final_of dfun n v (i_problem k)) (i_problem k)) k).
Proof.
  intros dfun n k k' S N E.
  destruct (hamiltonian (n_lamb n) (n_nu n) (i_problem k)) as [H|e] eqn:EH.
  2:{ rewrite (adjoint_fails_early _ _ _ _ EH) in E. discriminate. }
  destruct (o_V (i_problem k)) as [|v [|v2 rest]] eqn:EV.
  1, 3: exfalso; apply (adjoint_fails_late dfun n k S N); [rewrite EV; discriminate | rewrite E; reflexivity].
  exists H, v. split; [reflexivity|]. split; [reflexivity|].
  rewrite (adjoint_run dfun n k H v S N EH EV) in E. injection E as <-. reflexivity.
Qed.

Lemma w_adjoint : forall dfun n k k', in_step (i_model k) -> names_for n (i_problem k) ->
    create_adjoint_states dfun n k = (k', Ok tt) ->
    is_hamiltonian n (i_problem k) (i_H k') /\
    exists l_dot g t, i_problem k' = with_adjoints n l_dot g t (i_problem k) /\
      forall F env, respects F -> smooth_problem F dfun env (i_problem k) ->
        adjoint_values F env n (i_problem k) (i_H k') l_dot g t.
Proof.
  intros dfun n k k' S N E. destruct (adjoint_success _ _ _ _ S N E) as [H [v [EH [EV ->]]]].
  split; [apply hamiltonian_value, EH|].
  exists (l_dot_of dfun H (i_problem k)), (alg_eq_of dfun H (i_problem k)), (final_of dfun n v (i_problem k)).
  split; [reflexivity|]. intros F env HF HS. apply adjoint_computed; assumption.
Qed.
Lemma w_adjoint_iff : forall dfun n k, in_step (i_model k) -> names_for n (i_problem k) ->
    snd (create_adjoint_states dfun n k) = Ok tt <-> has_hamiltonian (i_problem k).
Proof.
  intros dfun n k S N. split.
  - intros E. destruct (create_adjoint_states dfun n k) as [k' r] eqn:Ek. cbn [snd] in E. subst r.
    destruct (adjoint_success _ _ _ _ S N Ek) as [H [v [EH [EV _]]]].
    destruct (proj1 (hamiltonian_iff n _ S N) (ex_intro _ H EH)) as [C [A L]].
    split; [exact C|]. split; [exact A|]. split; [exact L|]. rewrite EV. reflexivity.
  - intros [C [A [L V]]]. destruct (proj2 (hamiltonian_iff n _ S N)) as [H EH]; [tauto|].
    destruct (o_V (i_problem k)) as [|v [|v2 rest]] eqn:EV; try discriminate.
    rewrite (adjoint_run dfun n k H v S N EH EV). reflexivity.
Qed.

(** The state of the method when the control is computed. *)
Lemma prepare_steps : forall dfun zero inverse n k k', in_step (i_model k) -> names_for n (i_problem k) ->
    i_prepared k = false ->
    indirect_prepare dfun zero inverse n k = (k', Ok tt) ->
    ready_to_solve (i_problem k) /\
    exists k1 k2 u_opt,
      create_adjoint_states dfun n k = (k1, Ok tt) /\
      (if i_create_cost k
       then create_cost_state (n_cost n) (n_cost_0 n) (i_problem k1) = (i_problem k2, Ok tt)
       else i_problem k2 = i_problem k1) /\
      i_H k2 = i_H k1 /\ i_H k' = i_H k1 /\
      calculate_optimal_control dfun zero inverse k2 = Ok u_opt /\
      ocp_parametrize_control (m_u (i_model k2)) u_opt None (i_problem k2) = (i_problem k', Ok tt).
Proof.
  intros dfun zero inverse n k k' S N P H. unfold indirect_prepare in H.
  apply cbind_ok in H. destruct H as [k0 [[] [H0 H]]]. rewrite P in H0.
  destruct (pre_solve_check (i_problem k)) as [[]|] eqn:C; [|discriminate].
  assert (k0 = k) by congruence. subst k0. clear H0.
  split; [apply (proj1 (check_exact _)), C|].
  apply cbind_ok in H. destruct H as [k1 [[] [H1 H]]].
  apply cbind_ok in H. destruct H as [k2 [[] [H2 H]]].
  destruct (adjoint_success _ _ _ _ S N H1) as [Hm [v [EH [EV E1]]]].
  assert (Ec : i_create_cost k1 = i_create_cost k) by (rewrite E1; reflexivity). rewrite Ec in H2.
  destruct (calculate_optimal_control dfun zero inverse k2) as [u_opt|] eqn:EU; [|discriminate].
  unfold replace_with_optimal_control in H. apply on_problem_ok in H. destruct H as [o3 [H3 E3]].
  exists k1, k2, u_opt. split; [exact H1|].
  destruct (i_create_cost k).
  - apply cbind_ok in H2. destruct H2 as [k3 [[] [H2 H2']]]. apply cmodify_ok in H2. apply on_problem_ok in H2'.
    destruct H2' as [o2 [H2' E2]].
    assert (Ep : i_problem k3 = i_problem k1) by (rewrite H2; reflexivity).
    assert (Eh : i_H k3 = i_H k1) by (rewrite H2; reflexivity).
    rewrite Ep in H2'. rewrite E2 in *. cbn [i_problem i_H set_i_problem] in *.
    split; [exact H2'|]. split; [exact Eh|]. rewrite E3. cbn [i_problem i_H set_i_problem].
    split; [exact Eh|]. split; [exact EU | exact H3].
  - assert (k2 = k1) by congruence. subst k2. split; [reflexivity|]. split; [reflexivity|].
    rewrite E3. cbn [i_problem i_H set_i_problem]. split; [reflexivity|]. split; [exact EU | exact H3].
Qed.

(** ** The optimal control *)

Lemma w_within : forall F env dfun zero inverse k u_opt i,
    calculate_optimal_control dfun zero inverse k = Ok u_opt -> i < length u_opt ->
    consistent (nth i (o_u_min (i_problem k)) NInf) (nth i (o_u_max (i_problem k)) PInf) ->
    between (nth i (o_u_min (i_problem k)) NInf) (nth i (o_u_max (i_problem k)) PInf)
            (eval F env (nth i u_opt (EConst 0%Q))).
Proof.
  intros F env dfun zero inverse k u_opt i H Hi C. unfold calculate_optimal_control in H.
  destruct (zero _); [discriminate|]. destruct (inverse _) as [M|]; [|discriminate].
  destruct (saturate_all_nth F env _ _ _ _ H) as [L K].
  rewrite L in Hi. destruct (K i Hi) as [_ E]. rewrite E. apply clamp_between, C.
Qed.
Lemma w_stationary : forall F dfun zero inverse env k A u_opt,
    respects F -> inverts F inverse -> quadratic_case F dfun env k A ->
    calculate_optimal_control dfun zero inverse k = Ok u_opt ->
    exists s, stationary F env (m_u (i_model k)) (i_H k) s /\
      (forall t, stationary F env (m_u (i_model k)) (i_H k) t ->
         forall i, i < length (m_u (i_model k)) -> (t i == s i)%Q) /\
      (feasible (i_problem k) s ->
         forall i, i < length (m_u (i_model k)) -> (control_values F env u_opt i == s i)%Q).
Proof.
  intros F dfun zero inverse env k A u_opt HF HI [ND [Sy [[B HB] [[c [b HQ]] HS]]]] HU.
  destruct (control_stationary F dfun zero inverse env k c b A B u_opt HF ND HQ HS Sy HI HB HU) as [s [S1 S2]].
  exists s. split; [exact S1|]. split; [|exact S2].
  intros t T. exact (stationary_unique F env k c b A B ND HQ Sy HB t s T S1).
Qed.
Lemma w_minimises_diagonal : forall F dfun zero inverse env k A u_opt,
    respects F -> inverts F inverse -> quadratic_case F dfun env k A ->
    calculate_optimal_control dfun zero inverse k = Ok u_opt ->
    diagonal_positive (length (m_u (i_model k))) A ->
    (exists w, feasible (i_problem k) w) ->
    feasible (i_problem k) (control_values F env u_opt) /\
    forall w, feasible (i_problem k) w ->
      (hamiltonian_at F env k (control_values F env u_opt) <= hamiltonian_at F env k w)%Q.
Proof.
  intros F dfun zero inverse env k A u_opt HF HI [ND [Sy [[B HB] [[c [b HQ]] HS]]]] HU D [w0 W0]. split.
  - apply (control_feasible F dfun zero inverse env k c b A B u_opt HF ND HQ HS Sy HI HB HU).
    intros i Hi. exists (w0 i). exact (W0 i Hi).
  - intros w W.
    exact (control_minimises_diagonal F dfun zero inverse env k c b A B u_opt HF ND HQ HS Sy HI HB HU D w W).
Qed.
Lemma w_minimises_inside : forall F dfun zero inverse env k A u_opt s,
    respects F -> inverts F inverse -> quadratic_case F dfun env k A ->
    calculate_optimal_control dfun zero inverse k = Ok u_opt ->
    semidefinite (length (m_u (i_model k))) A ->
    stationary F env (m_u (i_model k)) (i_H k) s -> feasible (i_problem k) s ->
    forall w, (hamiltonian_at F env k (control_values F env u_opt) <= hamiltonian_at F env k w)%Q.
Proof.
  intros F dfun zero inverse env k A u_opt s HF HI [ND [Sy [[B HB] [[c [b HQ]] HS]]]] HU D S1 S2 w.
  exact (control_minimises_feasible F dfun zero inverse env k c b A B u_opt HF ND HQ HS Sy HI HB HU D s S1 S2 w).
Qed.
Lemma w_affine : forall dfun zero inverse k,
    zero (hessian dfun (i_H k) (m_u (i_model k))) = true ->
    calculate_optimal_control dfun zero inverse k = Raise AnyException.
Proof. intros dfun zero inverse k H. unfold calculate_optimal_control. rewrite H. reflexivity. Qed.

(** ** Preparation *)

Lemma smooth_ext : forall F dfun env1 env2 e, (forall s, env1 s = env2 s) -> smooth F dfun env1 e -> smooth F dfun env2 e.
Proof.
  intros F dfun env1 env2 e E. induction e as [q|s|op a IHa b IHb|f a IHa]; intros H; try exact I.
  - destruct op; cbn [smooth] in *; try contradiction; try (destruct H; split; [apply IHa | apply IHb]; assumption).
    destruct H as [H1 [H2 H3]]. split; [apply IHa, H1|]. split; [apply IHb, H2|].
    rewrite <- (eval_ext F env1 env2 b (fun s _ => E s)). exact H3.
  - cbn [smooth] in *. destruct H as [H1 H2]. split; [apply IHa, H1|]. unfold differentiates in *.
    rewrite <- !(eval_ext F env1 env2 _ (fun s _ => E s)). exact H2.
Qed.
Lemma controls_again : forall us env v w s, NoDup us ->
    controls_at env us w s = controls_at (controls_at env us v) us w s.
Proof.
  intros us env v w s ND. destruct (in_dec Nat.eq_dec s us) as [I|I].
  - destruct (In_nth _ _ 0%nat I) as [i [Hi <-]]. rewrite !controls_in by assumption. reflexivity.
  - rewrite !controls_out by assumption. reflexivity.
Qed.
Lemma clamp_ext : forall lo hi v w, (v == w)%Q -> (clamp lo hi v == clamp lo hi w)%Q.
Proof. intros lo hi v w E. unfold clamp. destruct lo, hi; rewrite ?E; reflexivity. Qed.
(** The result does not depend on the values of the controls. *)
Lemma w_independent : forall F dfun zero inverse env k A u_opt v,
    respects F -> inverts F inverse -> quadratic_case F dfun env k A ->
    calculate_optimal_control dfun zero inverse k = Ok u_opt ->
    length u_opt = length (m_u (i_model k)) /\
    forall i, i < length (m_u (i_model k)) ->
      (control_values F (controls_at env (m_u (i_model k)) v) u_opt i == control_values F env u_opt i)%Q.
Proof.
  intros F dfun zero inverse env k A u_opt v HF HI [ND [Sy [[B HB] [[c [b HQ]] HS]]]] HU.
  set (us := m_u (i_model k)) in *. set (env' := controls_at env us v).
  assert (HQ' : quadratic_in F env' us (i_H k) c b A).
  { intros w. rewrite <- (HQ w). unfold env'.
    rewrite (eval_ext F _ _ (i_H k) (fun s _ => controls_again us env v w s ND)). reflexivity. }
  assert (HS' : smooth_in F dfun env' us (i_H k)).
  { intros w. destruct (HS w) as [S1 S2]. unfold env'. split.
    - apply (smooth_ext F dfun _ _ _ (fun s => controls_again us env v w s ND)), S1.
    - intros d Hd. apply (smooth_ext F dfun _ _ _ (fun s => controls_again us env v w s ND)), S2, Hd. }
  destruct (control_value F dfun zero inverse env k c b A B u_opt HF ND HQ HS Sy HI HB HU) as [s [Z1 [L1 V1]]].
  destruct (control_value F dfun zero inverse env' k c b A B u_opt HF ND HQ' HS' Sy HI HB HU) as [t [Z2 [L2 V2]]].
  split; [exact L1|]. intros i Hi. unfold control_values. rewrite (proj2 (V1 i Hi)), (proj2 (V2 i Hi)).
  apply clamp_ext. apply (unique_solution (length us) A B b t s Sy HB); assumption.
Qed.
Lemma map_nth_seq : forall A B (f : A -> B) d l, map (fun i => f (nth i l d)) (seq 0 (length l)) = map f l.
Proof.
  intros A B f d l. induction l as [|a l IH]; [reflexivity|]. cbn [length seq map nth]. f_equal.
  rewrite <- seq_shift, map_map. exact IH.
Qed.
Lemma assign_close : forall us env1 env2 (p q : list Q) s, length p = length us -> length q = length us ->
    (forall s, ~ In s us -> env1 s = env2 s) ->
    (forall i, i < length us -> (nth i p 0 == nth i q 0)%Q) -> (assign env1 us p s == assign env2 us q s)%Q.
Proof.
  induction us as [|u us IH]; intros env1 env2 p q s L1 L2 O E.
  - cbn [assign]. rewrite (O s); [reflexivity | intros []].
  - destruct p as [|a p]; [discriminate|]. destruct q as [|b q]; [discriminate|]. cbn [assign].
    destruct (Nat.eq_dec s u) as [->|Ne]; [exact (E 0 ltac:(cbn; lia))|].
    set (e1 := fun s' => if Nat.eq_dec s' u then 0%Q else env1 s').
    set (e2 := fun s' => if Nat.eq_dec s' u then 0%Q else env2 s').
    assert (K : forall us' l e, assign e us' l s = assign (fun s' => if Nat.eq_dec s' u then 0%Q else e s') us' l s).
    { induction us' as [|x us' IHu]; intros l e; cbn [assign].
      - destruct (Nat.eq_dec s u); [contradiction | reflexivity].
      - destruct l as [|y l]; [destruct (Nat.eq_dec s u); [contradiction | reflexivity]|].
        destruct (Nat.eq_dec s x); [reflexivity | apply IHu]. }
    rewrite (K us p env1), (K us q env2). apply IH.
    + cbn in L1. lia.
    + cbn in L2. lia.
    + intros s' Hs'. cbv beta. destruct (Nat.eq_dec s' u) as [->|N']; [reflexivity|].
      apply O. intros [X|X]; [congruence | contradiction].
    + intros i Hi. exact (E (S i) ltac:(cbn; lia)).
Qed.
Lemma values_ext : forall F env e1 e2 old new, respects F -> (forall s, e1 s == e2 s)%Q ->
    evaluates_as F env e1 old new -> same_value F env e2 old new.
Proof.
  intros F env e1 e2 old new HF E H. unfold same_value. rewrite H. apply eval_ext_Qeq; [exact HF|]. intros s _. apply E.
Qed.
Lemma equation_ext : forall F env e1 e2 old new, respects F -> (forall s, e1 s == e2 s)%Q ->
    entry_evaluates_as F env e1 old new -> same_equation F env e2 old new.
Proof.
  intros F env e1 e2 [s0 [o0|]] [s1 [o1|]] HF E [H1 H2]; split; try exact H1; cbn [snd] in *; try contradiction; try exact I.
  exact (values_ext F env e1 e2 _ _ HF E H2).
Qed.
Lemma Forall2_weaken : forall A B (P R : A -> B -> Prop) l m, (forall a b, P a b -> R a b) -> Forall2 P l m -> Forall2 R l m.
Proof. intros A B P R l m H K. induction K; constructor; auto. Qed.
Lemma parametrized_values : forall F dfun zero inverse env k A u_opt o',
    respects F -> inverts F inverse -> quadratic_case F dfun env k A ->
    calculate_optimal_control dfun zero inverse k = Ok u_opt ->
    ocp_parametrize_control (m_u (i_model k)) u_opt None (i_problem k) = (o', Ok tt) ->
    takes_values F env (controls_at env (m_u (i_model k)) (control_values F env u_opt)) (i_problem k) o'.
Proof.
  intros F dfun zero inverse env k A u_opt o' HF HI HC HU HP.
  destruct (ocp_parametrize_twice F env _ _ _ _ _ HP) as [T1 [T2 [T3 _]]].
  destruct (w_independent F dfun zero inverse env k A u_opt (control_values F env u_opt) HF HI HC HU) as [L V].
  set (us := m_u (i_model k)) in *.
  assert (E : map (eval F env) u_opt = map (control_values F env u_opt) (seq 0 (length us))).
  { rewrite <- L. unfold control_values. rewrite (map_nth_seq _ _ (eval F env) (EConst 0%Q) u_opt). reflexivity. }
  set (once := assign env us (map (eval F env) u_opt)) in *.
  assert (O : once = controls_at env us (control_values F env u_opt)) by (unfold once, controls_at; rewrite E; reflexivity).
  assert (X : forall s, (assign once us (map (eval F once) u_opt) s == once s)%Q).
  { intros s. unfold once at 3. apply assign_close.
    - rewrite map_length. exact L.
    - rewrite map_length. exact L.
    - intros s' Hs'. unfold once. apply assign_notin, Hs'.
    - intros i Hi. rewrite !(nth_indep _ 0%Q (eval F once (EConst 0%Q))) at 1 by (rewrite map_length; lia).
      rewrite (nth_indep (map (eval F env) u_opt) 0%Q (eval F env (EConst 0%Q))) by (rewrite map_length; lia).
      rewrite !map_nth. specialize (V i Hi). unfold control_values in V at 1 3. rewrite <- O in V. exact V. }
  rewrite <- O. split; [|split].
  - eapply Forall2_weaken; [|exact T1]. intros a b. apply Forall2_weaken. intros x y Exy.
    apply (values_ext F env once once x y HF); [reflexivity | exact Exy].
  - eapply Forall2_weaken; [|exact T2]. intros x y Exy. exact (equation_ext _ _ _ _ _ _ HF X Exy).
  - eapply Forall2_weaken; [|exact T3]. intros x y Exy. exact (values_ext _ _ _ _ _ _ HF X Exy).
Qed.

Lemma w_prepare : forall dfun zero inverse n k k',
    in_step (i_model k) -> names_for n (i_problem k) -> i_prepared k = false -> i_create_cost k = false ->
    indirect_prepare dfun zero inverse n k = (k', Ok tt) ->
    ready_to_solve (i_problem k) /\
    exists l_dot g t u_opt,
      let k1 := set_i_problem (with_adjoints n l_dot g t (i_problem k)) k' in
      is_hamiltonian n (i_problem k) (i_H k') /\
      (forall F env, respects F -> smooth_problem F dfun env (i_problem k) ->
         adjoint_values F env n (i_problem k) (i_H k') l_dot g t) /\
      calculate_optimal_control dfun zero inverse k1 = Ok u_opt /\
      forall F env A, respects F -> inverts F inverse -> quadratic_case F dfun env k1 A ->
        takes_values F env (controls_at env (m_u (i_model k)) (control_values F env u_opt))
                     (i_problem k1) (i_problem k').
Proof.
  intros dfun zero inverse n k k' S N P C H.
  destruct (prepare_steps _ _ _ _ _ _ S N P H) as [R [k1 [k2 [u_opt [H1 [H2 [H3 [H4 [H5 H6]]]]]]]]].
  split; [exact R|].
  rewrite C in H2. destruct (w_adjoint _ _ _ _ S N H1) as [A1 [l_dot [g [t [A2 A3]]]]].
  exists l_dot, g, t, u_opt. cbv zeta. rewrite H4. split; [exact A1|]. split; [exact A3|].
  rewrite A2 in H2.
  assert (U : calculate_optimal_control dfun zero inverse
                (set_i_problem (with_adjoints n l_dot g t (i_problem k)) k') = Ok u_opt).
  { rewrite <- H5. unfold calculate_optimal_control, i_model. cbn [i_problem i_H set_i_problem].
    rewrite <- H2, H4, H3. reflexivity. }
  split; [exact U|]. intros F env A HF HI HC.
  apply (parametrized_values F dfun zero inverse env _ A u_opt (i_problem k') HF HI HC U).
  unfold i_model. cbn [i_problem set_i_problem]. rewrite <- H2. exact H6.
Qed.
Lemma w_prepare_refuses : forall dfun zero inverse n k, i_prepared k = false -> ~ ready_to_solve (i_problem k) ->
    exists e, indirect_prepare dfun zero inverse n k = (k, Raise e).
Proof.
  intros dfun zero inverse n k P R. unfold indirect_prepare.
  destruct (pre_solve_check (i_problem k)) as [[]|e] eqn:C.
  - exfalso. apply R. apply (proj1 (check_exact _)), C.
  - exists e. apply bind_stop. rewrite P, C. reflexivity.
Qed.

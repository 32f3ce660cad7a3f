(** Proofs about system models. *)
From Verif Require Import Base BaseProofs UtilModel UtilProofs ExprModel ExprProofs SysModel SysSpec.
Local Open Scope cmd_scope.

Ltac run := unfold cbind, cguard, cmodify, cset, cret, craise.
Ltac run_in H := unfold cbind, cguard, cmodify, cset, cret, craise in H.
Ltac fields := cbn [set_x set_x_0 set_ode set_y set_alg set_u set_u_par set_u_expr
                    set_parametrized set_p set_theta set_adjoint
                    m_x m_x_0 m_ode m_y m_alg m_u m_u_par m_u_expr m_parametrized m_p m_theta
                    m_t m_tau m_adjoint] in *.

Lemma sym_eqb_eq : forall a b, sym_eqb a b = true <-> a = b.
Proof. apply Nat.eqb_eq. Qed.

(** ** Substitution *)

Lemma substitute_nil : forall e, substitute e [] [] = e.
Proof. intros e. apply substitute_fresh. intros s _ []. Qed.

Lemma subst_vec_nil : forall es, subst_vec es [] [] = es.
Proof.
  intros es; unfold subst_vec. rewrite <- (map_id es) at 2. apply map_ext. apply substitute_nil.
Qed.

Lemma subst_ode_nil : forall d, subst_ode d [] [] = d.
Proof.
  intros d; unfold subst_ode. rewrite <- (map_id d) at 2. apply map_ext.
  intros [k [e|]]; simpl; [rewrite substitute_nil|]; reflexivity.
Qed.

Lemma subst_ode_keys : forall d v vd, dkeys (subst_ode d v vd) = dkeys d.
Proof. intros; unfold dkeys, subst_ode. rewrite map_map. reflexivity. Qed.

Definition replaced (o : list sym) (r : list expr) (m : model) : model :=
  set_ode (subst_ode (m_ode m) o r)
    (set_alg (subst_vec (m_alg m) o r) (set_u_expr (subst_vec (m_u_expr m) o r) m)).

Lemma replace_variable_eq : forall o r m,
    replace_variable o r m =
    if (length o =? length r)%nat then (replaced o r m, Ok tt) else (m, Raise ValueError).
Proof.
  intros o r m. unfold replace_variable, replaced; run.
  destruct (length o =? length r)%nat eqn:E; simpl; [|reflexivity].
  destruct o as [|a o]; simpl; [|reflexivity].
  destruct r; [|discriminate].
  rewrite subst_vec_nil, subst_vec_nil, subst_ode_nil. destruct m; reflexivity.
Qed.

(** [assign] is the valuation under which substituted expressions evaluate. *)
Lemma env_subst_assign : forall F env v vd s,
    env_subst F env v vd s = assign env v (map (eval F env) vd) s.
Proof.
  intros F env v; unfold env_subst; induction v as [|a v IH]; intros vd s; simpl; [reflexivity|].
  destruct vd as [|d vd]; simpl; [reflexivity|].
  destruct (Nat.eqb_spec s a), (Nat.eq_dec s a); try contradiction; [reflexivity | apply IH].
Qed.

Lemma eval_assign : forall F env v vd e,
    eval F env (substitute e v vd) = eval F (assign env v (map (eval F env) vd)) e.
Proof.
  intros. rewrite eval_substitute. apply eval_ext. intros; apply env_subst_assign.
Qed.

Lemma assign_notin : forall env v q s, ~ In s v -> assign env v q s = env s.
Proof.
  intros env v; induction v as [|a v IH]; intros q s H; simpl; [reflexivity|].
  destruct q; [reflexivity|]. destruct (Nat.eq_dec s a) as [->|]; [exfalso; apply H; left; reflexivity|].
  apply IH. intros Hin; apply H; right; exact Hin.
Qed.

Lemma replaced_evaluates : forall F env o r m,
    model_evaluates_as F env (assign env o (map (eval F env) r)) m (replaced o r m).
Proof.
  intros F env o r m. unfold replaced; split; [|split]; fields.
  - unfold subst_ode. induction (m_ode m) as [|[k [e|]] d IH]; simpl; constructor; try exact IH;
      (split; [reflexivity|]); simpl; [apply eval_assign | exact I].
  - unfold subst_vec. induction (m_alg m) as [|e d IH]; simpl; constructor;
      [apply eval_assign | exact IH].
  - unfold subst_vec. induction (m_u_expr m) as [|e d IH]; simpl; constructor;
      [apply eval_assign | exact IH].
Qed.

Lemma replaced_variables : forall o r m, same_variables (replaced o r m) m.
Proof. intros; repeat split. Qed.

Lemma subst_vec_fresh : forall es o r,
    (forall e s, In e es -> In s o -> ~ In s (symbols e)) -> subst_vec es o r = es.
Proof.
  intros es o r H. unfold subst_vec. rewrite <- (map_id es) at 2. apply map_ext_in.
  intros e He. apply substitute_fresh. intros s Hs Ho. exact (H e s He Ho Hs).
Qed.

Lemma subst_ode_fresh : forall d o r,
    (forall k e s, In (k, Some e) d -> In s o -> ~ In s (symbols e)) -> subst_ode d o r = d.
Proof.
  intros d o r H. unfold subst_ode. rewrite <- (map_id d) at 2. apply map_ext_in.
  intros [k [e|]] He; simpl; [|reflexivity]. rewrite substitute_fresh; [reflexivity|].
  intros s Hs Ho. exact (H k e s He Ho Hs).
Qed.

Lemma replaced_fresh : forall o r m,
    (forall s, In s o -> free_of m s) -> replaced o r m = m.
Proof.
  intros o r m H. unfold replaced.
  rewrite subst_vec_fresh, subst_vec_fresh, subst_ode_fresh.
  - destruct m; reflexivity.
  - intros k e s Hin Ho Hs. destruct (H s Ho) as [H1 _]. exact (H1 k e Hin Hs).
  - intros e s Hin Ho Hs. destruct (H s Ho) as [_ [_ H3]]. exact (H3 e Hin Hs).
  - intros e s Hin Ho Hs. destruct (H s Ho) as [_ [H2 _]]. exact (H2 e Hin Hs).
Qed.

(** ** Equations *)

Lemma from_kwargs_eq : forall x f m,
    include_equation_from_kwargs x f m =
    if (length f =? length x)%nat then
      if forallb (fun s => dhas sym_eqb s (m_ode m)) x
      then (set_ode (dupdate sym_eqb (m_ode m) (combine x (map Some f))) m, Ok tt)
      else (m, Raise KeyError)
    else (m, Raise AssertionError).
Proof.
  intros x f m. unfold include_equation_from_kwargs; run.
  destruct (length f =? length x)%nat; simpl; [|reflexivity].
  assert (E : existsb (fun x_i => negb (dhas sym_eqb x_i (m_ode m))) x
              = negb (forallb (fun s => dhas sym_eqb s (m_ode m)) x)).
  { induction x as [|a x IH]; simpl; [reflexivity|]. rewrite IH.
    destruct (dhas sym_eqb a (m_ode m)); reflexivity. }
  rewrite E. destruct (forallb _ x); reflexivity.
Qed.

Lemma dkeys_combine_some : forall (x : list sym) (f : list expr),
    length f = length x -> dkeys (combine x (map Some f)) = x.
Proof.
  induction x as [|a x IH]; intros [|b f] H; simpl in *; try discriminate; [reflexivity|].
  f_equal. apply IH. lia.
Qed.

Lemma from_kwargs_keys : forall x f m,
    dkeys (m_ode (fst (include_equation_from_kwargs x f m))) = dkeys (m_ode m) /\
    (let m' := fst (include_equation_from_kwargs x f m) in
     m' = set_ode (m_ode m') m).
Proof.
  intros x f m. rewrite from_kwargs_eq.
  destruct (length f =? length x)%nat eqn:E; [|destruct m; split; reflexivity].
  destruct (forallb _ x) eqn:E2; [|destruct m; split; reflexivity].
  cbn [fst]. fields. split; [|reflexivity].
  apply dupdate_keys; [exact sym_eqb_eq|]. intros k Hk.
  apply Nat.eqb_eq in E. rewrite (dkeys_combine_some x f E) in Hk.
  rewrite forallb_forall in E2. apply (dhas_In _ sym_eqb_eq), E2, Hk.
Qed.

(** [include_equations] changes only equations, and keeps the states listed. *)
Definition eq_frame (m m' : model) : Prop :=
  m' = set_ode (m_ode m') (set_alg (m_alg m') m) /\ dkeys (m_ode m') = dkeys (m_ode m).

Lemma eq_frame_refl : forall m, eq_frame m m.
Proof. intros []; split; reflexivity. Qed.

Lemma eq_frame_trans : forall a b c, eq_frame a b -> eq_frame b c -> eq_frame a c.
Proof.
  intros a b c [H1 H2] [H3 H4]. split; [|congruence].
  rewrite H3 at 1. rewrite H1 at 1. reflexivity.
Qed.

Lemma from_kwargs_frame : forall x f m, eq_frame m (fst (include_equation_from_kwargs x f m)).
Proof.
  intros x f m. destruct (from_kwargs_keys x f m) as [H1 H2]. cbv zeta in H2.
  split; [|exact H1]. rewrite H2 at 1. rewrite H2. destruct m; reflexivity.
Qed.

Lemma fst_cbind_frame : forall (R : model -> model -> Prop),
    (forall a b c, R a b -> R b c -> R a c) ->
    forall (A B : Type) (c : cmd model A) (k : A -> cmd model B) m,
    R m (fst (c m)) -> (forall a, R (fst (c m)) (fst (k a (fst (c m))))) ->
    R m (fst (cbind c k m)).
Proof.
  intros R Htr A B c k m H1 H2. unfold cbind. destruct (c m) as [m1 [a|e]]; simpl in *.
  - eapply Htr; [exact H1 | apply H2].
  - exact H1.
Qed.

Lemma include_equations_frame : forall args f x alg m,
    eq_frame m (fst (include_equations args f x alg m)).
Proof.
  intros args f x alg m. unfold include_equations.
  apply (fst_cbind_frame eq_frame eq_frame_trans).
  { unfold include_equations_alg; run; cbn [fst]. destruct m; split; reflexivity. }
  intros _. generalize (fst (include_equations_alg args alg m)) as m1. intros m1.
  apply (fst_cbind_frame eq_frame eq_frame_trans).
  { run. destruct (match f with Some _ => _ | None => _ end); apply eq_frame_refl. }
  intros _.
  assert (Hg : fst (cguard (fun _ => match f with
             | Some _ => false
             | None => match x with Some _ => true | None => false end
             end) ValueError m1) = m1).
  { run. destruct f; [reflexivity|]. destruct x; reflexivity. }
  rewrite Hg.
  apply (fst_cbind_frame eq_frame eq_frame_trans).
  { destruct args; [apply eq_frame_refl|]. apply from_kwargs_frame. }
  intros _. generalize (fst (match args with
                   | [] => cret tt
                   | _ :: _ => include_equation_from_diff_equations args
                   end m1)) as m2. intros m2.
  destruct f as [f|]; [|apply eq_frame_refl].
  destruct x as [x|]; [apply from_kwargs_frame|].
  destruct (guess_states (length f) m2); [apply from_kwargs_frame | apply eq_frame_refl].
Qed.

Lemma replace_frame : forall o r m,
    same_variables (fst (replace_variable o r m)) m /\
    dkeys (m_ode (fst (replace_variable o r m))) = dkeys (m_ode m).
Proof.
  intros o r m. rewrite replace_variable_eq. destruct (_ =? _)%nat; cbn [fst].
  - split; [apply replaced_variables|]. unfold replaced; fields. apply subst_ode_keys.
  - repeat split.
Qed.

(** ** States in step with the table *)

(** Calls that leave the states and the listed states alone, whatever happens. *)
Definition same_states (m m' : model) : Prop :=
  m_x m' = m_x m /\ dkeys (m_ode m') = dkeys (m_ode m) /\ m_x_0 m' = m_x_0 m.

Lemma same_states_refl : forall m, same_states m m.
Proof. repeat split. Qed.
Lemma same_states_trans : forall a b c, same_states a b -> same_states b c -> same_states a c.
Proof. unfold same_states. intuition congruence. Qed.

Definition stable {A : Type} (c : cmd model A) : Prop := forall m, same_states m (fst (c m)).

Lemma stable_cbind : forall A B (c : cmd model A) (k : A -> cmd model B),
    stable c -> (forall a, stable (k a)) -> stable (cbind c k).
Proof.
  intros A B c k Hc Hk m. apply (fst_cbind_frame _ same_states_trans); [apply Hc | intros a; apply Hk].
Qed.
Lemma stable_cret : forall A (a : A), stable (cret a).
Proof. intros A a m; apply same_states_refl. Qed.
Lemma stable_cguard : forall b e, stable (cguard b e).
Proof. intros b e m; run. destruct (b m); apply same_states_refl. Qed.
Lemma stable_cmodify : forall f, (forall m, same_states m (f m)) -> stable (cmodify f).
Proof. intros f H m; apply H. Qed.
Lemma stable_cset : forall A (r : model -> res A) put,
    (forall a m, same_states m (put a m)) -> stable (cset r put).
Proof. intros A r put H m; run. destruct (r m); [apply H | apply same_states_refl]. Qed.

Lemma stable_include_equations : forall args f x alg, stable (include_equations args f x alg).
Proof.
  intros args f x alg m. destruct (include_equations_frame args f x alg m) as [H1 H2].
  split; [|split]; [rewrite H1; reflexivity | exact H2 | rewrite H1; reflexivity].
Qed.

Lemma stable_replace : forall o r, stable (replace_variable o r).
Proof.
  intros o r m. destruct (replace_frame o r m) as [[H1 [H2 _]] H3]. repeat split; assumption.
Qed.

Ltac stab :=
  repeat lazymatch goal with
    | |- stable (cbind _ _) => apply stable_cbind; [|intros ?]
    | |- stable (cret _) => apply stable_cret
    | |- stable (cguard _ _) => apply stable_cguard
    | |- stable (cmodify _) => apply stable_cmodify; intros ?; repeat split
    | |- stable (cset _ _) => apply stable_cset; intros ? ?; repeat split
    | |- stable (include_equations _ _ _ _) => apply stable_include_equations
    | |- stable (replace_variable _ _) => apply stable_replace
    end.

Lemma stable_include_algebraic : forall var alg, stable (include_algebraic var alg).
Proof. intros var alg. unfold include_algebraic. stab. destruct alg; stab. Qed.
Lemma stable_remove_algebraic : forall same var eq, stable (remove_algebraic same var eq).
Proof. intros same var eq. unfold remove_algebraic. stab. destruct eq; stab. Qed.
Lemma stable_include_control : forall var, stable (include_control var).
Proof. intros var. unfold include_control. stab. Qed.
Lemma stable_remove_control : forall var, stable (remove_control var).
Proof. intros var. unfold remove_control. stab. Qed.
Lemma stable_parametrize_loop : forall u, stable (parametrize_loop u).
Proof. induction u as [|a u IH]; simpl; stab. exact IH. Qed.
Lemma stable_parametrize : forall u e up, stable (parametrize_control u e up).
Proof.
  intros u e up. unfold parametrize_control. stab.
  - apply stable_parametrize_loop.
  - destruct up; stab.
Qed.
Lemma stable_connect : forall u y r, stable (connect u y r).
Proof.
  intros u y r. unfold connect. stab.
  - destruct r; stab. apply stable_include_algebraic.
  - apply stable_remove_control.
Qed.

Lemma stable_include_parameter : forall p, stable (include_parameter p).
Proof. intros p. unfold include_parameter. stab. Qed.
Lemma stable_include_theta : forall p, stable (include_theta p).
Proof. intros p. unfold include_theta. stab. Qed.
Lemma stable_remove_parameter : forall p, stable (remove_parameter p).
Proof. intros p. unfold remove_parameter. stab. Qed.
Lemma stable_remove_theta : forall p, stable (remove_theta p).
Proof. intros p. unfold remove_theta. stab. Qed.

(** Everything [include_model] does after including the states. *)
Definition include_model_rest (other : model) : cmd model unit :=
  include_algebraic (m_y other) None ;;;
  include_control (m_u other) ;;;
  include_parameter (m_p other) ;;;
  include_theta (m_theta other) ;;;
  include_equations [] (Some (ode other)) (Some (m_x other)) (Some (m_alg other)) ;;;
  (fun m => replace_variable [m_t other] [EVar (m_t m)] m) ;;;
  (fun m => replace_variable [m_tau other] [EVar (m_tau m)] m).

Lemma include_model_split : forall other m,
    include_model other m =
    (include_state (m_x other) None (m_x_0 other) ;;; include_model_rest other) m.
Proof. reflexivity. Qed.

Lemma stable_include_model_rest : forall other, stable (include_model_rest other).
Proof.
  intros other. unfold include_model_rest.
  apply stable_cbind; [apply stable_include_algebraic | intros _].
  apply stable_cbind; [apply stable_include_control | intros _].
  apply stable_cbind; [apply stable_include_parameter | intros _].
  apply stable_cbind; [apply stable_include_theta | intros _].
  apply stable_cbind; [apply stable_include_equations | intros _].
  apply stable_cbind; [|intros _]; intros m; apply stable_replace.
Qed.

Lemma in_step_same_states : forall m m', in_step m -> same_states m m' -> in_step m'.
Proof.
  intros m m' [H1 H2] [H3 [H4 _]]. unfold in_step, dkeys in *. split; [|rewrite H3; exact H2].
  rewrite H4, H3. exact H1.
Qed.

Lemma include_state_loop_ok : forall var m m',
    include_state_loop var m = (m', Ok tt) ->
    m' = set_ode (m_ode m ++ map (fun s => (s, None)) var) m /\
    NoDup var /\ (forall s, In s var -> ~ In s (dkeys (m_ode m))).
Proof.
  induction var as [|a var IH]; intros m m' H; simpl in H; run_in H.
  - injection H as <-. simpl. rewrite app_nil_r. split; [destruct m; reflexivity|].
    split; [constructor | intros s []].
  - destruct (dhas sym_eqb a (m_ode m)) eqn:E; [discriminate|].
    assert (Ha : ~ In a (dkeys (m_ode m))).
    { intros Hin. apply (dhas_In _ sym_eqb_eq) in Hin. congruence. }
    apply IH in H. destruct H as [-> [Hnd Hin]].
    fields. rewrite (dset_notIn_app _ sym_eqb_eq) in * by exact Ha.
    unfold dkeys in *. rewrite map_app in Hin. simpl in Hin.
    split; [rewrite <- app_assoc; reflexivity|]. split.
    + constructor; [|exact Hnd]. intros Hin'. apply (Hin a Hin'). apply in_or_app.
      right; left; reflexivity.
    + intros s [<-|Hs]; [exact Ha|]. intros Hk. apply (Hin s Hs). apply in_or_app. left; exact Hk.
Qed.

Lemma include_state_loop_fresh : forall var m,
    NoDup var -> (forall s, In s var -> ~ In s (dkeys (m_ode m))) ->
    include_state_loop var m = (set_ode (m_ode m ++ map (fun s => (s, None)) var) m, Ok tt).
Proof.
  induction var as [|a var IH]; intros m Hnd Hin; simpl; run.
  - simpl. rewrite app_nil_r. destruct m; reflexivity.
  - inversion Hnd as [|? ? Hni Hnd']; subst.
    assert (Ha : ~ In a (dkeys (m_ode m))) by (apply Hin; left; reflexivity).
    destruct (dhas sym_eqb a (m_ode m)) eqn:E.
    { apply (dhas_In _ sym_eqb_eq) in E. contradiction. }
    rewrite (dset_notIn_app _ sym_eqb_eq) by exact Ha.
    rewrite IH; fields.
    + rewrite <- app_assoc. reflexivity.
    + exact Hnd'.
    + unfold dkeys. rewrite map_app. intros s Hs Hk. apply in_app_or in Hk. destruct Hk as [Hk|[<-|[]]].
      * apply (Hin s); [right; exact Hs | exact Hk].
      * contradiction.
Qed.

(** The loop either succeeds or raises ValueError. *)
Lemma include_state_loop_err : forall var m m' e,
    include_state_loop var m = (m', Raise e) -> e = ValueError.
Proof.
  induction var as [|a var IH]; intros m m' e H; simpl in H; run_in H; [discriminate|].
  destruct (dhas sym_eqb a (m_ode m)); [injection H as _ <-; reflexivity|]. eapply IH, H.
Qed.

Definition with_states (var x_0 : list sym) (m : model) : model :=
  set_ode (m_ode m ++ map (fun s => (s, None)) var)
          (set_x_0 (m_x_0 m ++ x_0) (set_x (m_x m ++ var) m)).

Lemma include_state_ok : forall var f x_0 m m',
    include_state var f x_0 m = (m', Ok tt) ->
    NoDup var /\ (forall s, In s var -> ~ In s (dkeys (m_ode m))) /\
    match f with
    | None => m' = with_states var x_0 m
    | Some f => include_equations [] (Some f) (Some var) None (with_states var x_0 m) = (m', Ok tt)
    end.
Proof.
  intros var f x_0 m m' H. unfold include_state in H; run_in H; fields.
  destruct (include_state_loop var _) as [m1 [[]|e]] eqn:E; [|discriminate].
  apply include_state_loop_ok in E. destruct E as [-> [Hnd Hin]]. fields.
  split; [exact Hnd|]. split; [exact Hin|].
  destruct f as [f|].
  - exact H.
  - injection H as <-. reflexivity.
Qed.

Lemma in_step_with_states : forall var x_0 m,
    in_step m -> NoDup var -> (forall s, In s var -> ~ In s (dkeys (m_ode m))) ->
    in_step (with_states var x_0 m).
Proof.
  intros var x_0 m [H1 H2] Hnd Hin. unfold in_step, with_states; fields.
  rewrite map_app, map_map. simpl. rewrite map_id, H1. split; [reflexivity|].
  unfold dkeys in Hin. rewrite H1 in Hin. revert H2 Hin.
  clear H1. induction (m_x m) as [|a l IH]; intros H2 Hin; simpl; [exact Hnd|].
  inversion H2; subst. constructor.
  - intros Hx. apply in_app_or in Hx. destruct Hx as [Hx|Hx]; [contradiction|].
    apply (Hin a Hx). left; reflexivity.
  - apply IH; [assumption|]. intros s Hs Hl. apply (Hin s Hs). right; exact Hl.
Qed.

Lemma in_step_include_state : forall var f x_0 m m',
    in_step m -> include_state var f x_0 m = (m', Ok tt) -> in_step m'.
Proof.
  intros var f x_0 m m' Hin H. apply include_state_ok in H. destruct H as [Hnd [Hk H]].
  pose proof (in_step_with_states var x_0 m Hin Hnd Hk) as Hw.
  destruct f as [f|]; [|subst; exact Hw].
  apply (in_step_same_states _ _ Hw).
  pose proof (stable_include_equations [] (Some f) (Some var) None (with_states var x_0 m)) as Hs.
  rewrite H in Hs. exact Hs.
Qed.

Lemma filter_twice : forall a var (d : dict sym (option expr)),
    filter (fun kv => negb (memb sym_eqb (fst kv) var))
           (filter (fun kv => negb (sym_eqb a (fst kv))) d) =
    filter (fun kv => negb (memb sym_eqb (fst kv) (a :: var))) d.
Proof.
  intros a var d. induction d as [|[k v] d IH]; [reflexivity|].
  cbn [filter fst]. change (memb sym_eqb k (a :: var)) with (sym_eqb k a || memb sym_eqb k var)%bool.
  replace (sym_eqb k a) with (sym_eqb a k) by apply Nat.eqb_sym.
  destruct (sym_eqb a k); cbn [negb orb]; [exact IH|].
  cbn [filter fst]. destruct (negb (memb sym_eqb k var)); [f_equal|]; exact IH.
Qed.

Lemma remove_state_loop_ok : forall var m m',
    NoDup (dkeys (m_ode m)) ->
    remove_state_loop var m = (m', Ok tt) ->
    m' = set_ode (filter (fun kv => negb (memb sym_eqb (fst kv) var)) (m_ode m)) m /\
    (forall s, In s var -> In s (dkeys (m_ode m))) /\ NoDup var.
Proof.
  induction var as [|a var IH]; intros m m' Hnd H; simpl in H; run_in H.
  - injection H as <-. split; [|split; [intros s [] | constructor]].
    assert (E : forall (d : dict sym (option expr)),
               filter (fun kv => negb (memb sym_eqb (fst kv) [])) d = d)
      by (induction d as [|kv d IHd]; simpl; [reflexivity | f_equal; exact IHd]).
    rewrite E. destruct m; reflexivity.
  - destruct (ddel sym_eqb a (m_ode m)) as [d|] eqn:E; [|discriminate].
    unfold ddel in E. destruct (dhas sym_eqb a (m_ode m)) eqn:Eh; [|discriminate].
    injection E as <-. apply (dhas_In _ sym_eqb_eq) in Eh.
    apply IH in H; fields.
    + destruct H as [-> [Hin Hv]]. split; [|split].
      * rewrite filter_twice. destruct m; reflexivity.
      * intros s [<-|Hs]; [exact Eh|]. specialize (Hin s Hs). unfold dkeys in *.
        apply in_map_iff in Hin. destruct Hin as [kv [<- Hkv]]. apply filter_In in Hkv.
        apply in_map, Hkv.
      * constructor; [|exact Hv]. intros Ha. specialize (Hin a Ha). unfold dkeys in Hin.
        apply in_map_iff in Hin. destruct Hin as [kv [Hk Hkv]]. apply filter_In in Hkv.
        destruct Hkv as [_ Hkv]. rewrite Hk in Hkv. unfold sym_eqb in Hkv. rewrite Nat.eqb_refl in Hkv.
        discriminate.
    + unfold dkeys. clear - Hnd. unfold dkeys in Hnd.
      induction (m_ode m) as [|[k v] d IHd]; simpl; [constructor|].
      inversion Hnd; subst. destruct (negb _); simpl; [|apply IHd; assumption].
      constructor; [|apply IHd; assumption].
      intros Hin. apply in_map_iff in Hin. destruct Hin as [kv [Hk Hkv]].
      apply filter_In in Hkv. apply H1. simpl. rewrite <- Hk. apply in_map, Hkv.
Qed.

Lemma remove_state_ok : forall var m m',
    in_step m -> remove_state var m = (m', Ok tt) ->
    in_step m' /\ (forall s, In s (m_x m') <-> In s (m_x m) /\ ~ In s var) /\
    (forall s, In s var -> In s (m_x m)) /\
    m_ode m' = filter (fun kv => negb (memb sym_eqb (fst kv) var)) (m_ode m) /\
    m_x m' = filter (fun s => negb (memb sym_eqb s var)) (m_x m) /\
    m' = set_ode (m_ode m') (set_x (m_x m') m).
Proof.
  intros var m m' [H1 H2] H. unfold remove_state in H; run_in H.
  destruct (remove_syms var (m_x m)) as [r|] eqn:E; [|discriminate].
  pose proof (remove_variables_In _ sym_eqb_eq _ _ _ E) as Hr.
  pose proof (remove_variables_content _ sym_eqb_eq _ _ _ E) as Hc.
  apply remove_state_loop_ok in H; fields.
  2:{ unfold dkeys. rewrite H1. exact H2. }
  destruct H as [-> [Hin Hv]]. fields.
  assert (Hkeys : map fst (filter (fun kv : sym * option expr => negb (memb sym_eqb (fst kv) var)) (m_ode m))
                  = filter (fun w => negb (memb sym_eqb w var)) (map fst (m_ode m))).
  { clear. induction (m_ode m) as [|[k v] d IHd]; simpl; [reflexivity|].
    destruct (negb (memb sym_eqb k var)); simpl; [f_equal|]; exact IHd. }
  split; [split|].
  - fields. rewrite Hkeys, H1, Hc. reflexivity.
  - fields. rewrite Hc. apply NoDup_filter, H2.
  - split; [exact Hr|]. split; [|split; [reflexivity | split; [exact Hc | reflexivity]]].
    intros s Hs. unfold dkeys in Hin. rewrite H1 in Hin. apply Hin, Hs.
Qed.

Lemma cbind_ok : forall S A B (c : cmd S A) (k : A -> cmd S B) s s' b,
    cbind c k s = (s', Ok b) -> exists s1 a, c s = (s1, Ok a) /\ k a s1 = (s', Ok b).
Proof.
  intros S A B c k s s' b H. unfold cbind in H. destruct (c s) as [s1 [a|e]]; [|discriminate].
  exists s1, a. split; [reflexivity | exact H].
Qed.

Ltac stable_use lem :=
  let H := fresh "Hst" in pose proof lem as H.

Lemma in_step_include_model : forall other m m',
    in_step m -> include_model other m = (m', Ok tt) -> in_step m'.
Proof.
  intros other m m' Hin H. rewrite include_model_split in H.
  apply cbind_ok in H. destruct H as [m1 [[] [H1 H]]].
  apply in_step_include_state in H1; [|exact Hin].
  apply (in_step_same_states _ _ H1).
  pose proof (stable_include_model_rest other m1) as Hs. rewrite H in Hs. exact Hs.
Qed.

Lemma in_step_step : forall same o m m',
    in_step m -> model_step same o m = (m', Ok tt) -> in_step m'.
Proof.
  intros same o m m' Hin H.
  assert (Hst : forall c : cmd model unit, stable c -> c m = (m', Ok tt) -> in_step m').
  { intros c Hc E. apply (in_step_same_states _ _ Hin). specialize (Hc m). rewrite E in Hc. exact Hc. }
  destruct o; cbn [model_step] in H.
  - eapply in_step_include_state; eassumption.
  - eapply remove_state_ok in H; [destruct H as [H _]; exact H | exact Hin].
  - eapply Hst; [|exact H]. apply stable_include_equations.
  - eapply Hst; [|exact H]. apply stable_replace.
  - eapply Hst; [|exact H]. apply stable_include_algebraic.
  - eapply Hst; [|exact H]. apply stable_remove_algebraic.
  - eapply Hst; [|exact H]. apply stable_include_control.
  - eapply Hst; [|exact H]. apply stable_remove_control.
  - eapply Hst; [|exact H]. apply stable_parametrize.
  - eapply Hst; [|exact H]. apply stable_include_parameter.
  - eapply Hst; [|exact H]. apply stable_include_theta.
  - eapply Hst; [|exact H]. apply stable_remove_parameter.
  - eapply Hst; [|exact H]. apply stable_remove_theta.
  - unfold include_models in H.
    refine (run_all_inv _ _ _ include_model in_step _ others m m' Hin H).
    intros o s s' [] Hs Ho. eapply in_step_include_model; eassumption.
  - eapply Hst; [|exact H]. apply stable_connect.
Qed.

Lemma in_step_new : forall t tau, in_step (new_model t tau).
Proof. intros; split; [reflexivity | constructor]. Qed.

Lemma in_step_history : forall same ops t tau m,
    run_all (model_step same) ops (new_model t tau) = (m, Ok tt) -> in_step m.
Proof.
  intros same ops t tau m H.
  refine (run_all_inv _ _ _ (model_step same) in_step _ ops _ m (in_step_new t tau) H).
  intros o s s' [] Hs Ho. eapply in_step_step; eassumption.
Qed.

(** ** The table never has duplicates, even after failed calls *)

Definition nodup_keys (m : model) : Prop := NoDup (dkeys (m_ode m)).

Definition keeps (P : model -> Prop) {A : Type} (c : cmd model A) : Prop :=
  forall m, P m -> P (fst (c m)).
Lemma keeps_cbind : forall P A B (c : cmd model A) (k : A -> cmd model B),
    keeps P c -> (forall a, keeps P (k a)) -> keeps P (cbind c k).
Proof.
  intros P A B c k Hc Hk m Hm. unfold cbind. specialize (Hc m Hm).
  destruct (c m) as [m1 [a|e]]; simpl in *; [apply Hk, Hc | exact Hc].
Qed.
Lemma keeps_cret : forall P A (a : A), keeps P (cret a).
Proof. intros P A a m H; exact H. Qed.
Lemma keeps_cguard : forall P b e, keeps P (cguard b e).
Proof. intros P b e m H; run. destruct (b m); exact H. Qed.
Lemma keeps_cmodify : forall (P : model -> Prop) f, (forall m, P m -> P (f m)) -> keeps P (cmodify f).
Proof. intros P f H m Hm; apply H, Hm. Qed.
Lemma keeps_cset : forall (P : model -> Prop) A (r : model -> res A) put,
    (forall a m, P m -> r m = Ok a -> P (put a m)) -> keeps P (cset r put).
Proof. intros P A r put H m Hm; run. destruct (r m) eqn:E; [apply H; assumption | exact Hm]. Qed.
Lemma keeps_stable : forall A (c : cmd model A) , stable c -> keeps nodup_keys c.
Proof. intros A c Hc m Hm. unfold nodup_keys. destruct (Hc m) as [_ [-> _]]. exact Hm. Qed.
Lemma keeps_run_all : forall P O (step : O -> cmd model unit) ops,
    (forall o, keeps P (step o)) -> keeps P (run_all step ops).
Proof.
  intros P O step ops H; induction ops as [|o ops IH]; intros m Hm; simpl; [exact Hm|].
  specialize (H o m Hm). destruct (step o m) as [m1 [a|e]]; simpl in *; [apply IH, H | exact H].
Qed.

Lemma dset_nodup : forall k (v : option expr) d,
    NoDup (dkeys d) -> NoDup (dkeys (dset sym_eqb k v d)).
Proof.
  intros k v d H. destruct (in_dec Nat.eq_dec k (dkeys d)) as [Hi|Hi].
  - rewrite (dkeys_dset_In _ sym_eqb_eq) by exact Hi. exact H.
  - rewrite (dkeys_dset_notIn _ sym_eqb_eq) by exact Hi.
    clear v. induction (dkeys d) as [|a l IH]; simpl; [constructor; [intros []|constructor]|].
    inversion H; subst. constructor.
    + intros Hx. apply in_app_or in Hx. destruct Hx as [Hx|[<-|[]]]; [contradiction|].
      apply Hi; left; reflexivity.
    + apply IH; [assumption|]. intros Hx; apply Hi; right; exact Hx.
Qed.

Lemma nodup_include_state : forall var f x_0, keeps nodup_keys (include_state var f x_0).
Proof.
  intros var f x_0. unfold include_state.
  apply keeps_cbind; [apply keeps_cmodify; intros m H; exact H | intros _].
  apply keeps_cbind; [apply keeps_cmodify; intros m H; exact H | intros _].
  apply keeps_cbind; [|intros _].
  - induction var as [|a var IH]; simpl; [apply keeps_cret|].
    apply keeps_cbind; [apply keeps_cguard | intros _].
    apply keeps_cbind; [|intros _; exact IH].
    apply keeps_cmodify. intros m H. unfold nodup_keys; fields. apply dset_nodup, H.
  - destruct f; [apply keeps_stable, stable_include_equations | apply keeps_cret].
Qed.

Lemma nodup_step : forall same o, keeps nodup_keys (model_step same o).
Proof.
  intros same o. destruct o; cbn [model_step].
  - apply nodup_include_state.
  - unfold remove_state. apply keeps_cbind; [apply keeps_cset; intros a m H _; exact H | intros _].
    induction var as [|a var IH]; simpl; [apply keeps_cret|].
    apply keeps_cbind; [|intros _; exact IH].
    apply keeps_cset. intros d m H Hd. unfold ddel in Hd. destruct (dhas _ _ _); [|discriminate].
    injection Hd as <-. unfold nodup_keys in *; fields. revert H. unfold dkeys.
    induction (m_ode m) as [|[k v] d IHd]; simpl; intros H; [constructor|].
    inversion H; subst. destruct (negb _); simpl; [|apply IHd; assumption].
    constructor; [|apply IHd; assumption].
    intros Hin. apply in_map_iff in Hin. destruct Hin as [kv [Hk Hkv]].
    apply filter_In in Hkv. apply H2. simpl. rewrite <- Hk. apply in_map, Hkv.
  - apply keeps_stable, stable_include_equations.
  - apply keeps_stable, stable_replace.
  - apply keeps_stable, stable_include_algebraic.
  - apply keeps_stable, stable_remove_algebraic.
  - apply keeps_stable, stable_include_control.
  - apply keeps_stable, stable_remove_control.
  - apply keeps_stable, stable_parametrize.
  - apply keeps_stable, stable_include_parameter.
  - apply keeps_stable, stable_include_theta.
  - apply keeps_stable, stable_remove_parameter.
  - apply keeps_stable, stable_remove_theta.
  - unfold include_models. apply keeps_run_all. intros other m Hm.
    rewrite include_model_split. revert m Hm.
    apply (keeps_cbind nodup_keys); [apply nodup_include_state | intros _].
    apply keeps_stable, stable_include_model_rest.
  - apply keeps_stable, stable_connect.
Qed.

Lemma nodup_history : forall same ops t tau,
    NoDup (map fst (m_ode (run_caught (model_step same) ops (new_model t tau)))).
Proof.
  intros same ops t tau.
  apply (run_caught_inv _ _ _ (model_step same) nodup_keys).
  - intros o s Hs. apply nodup_step, Hs.
  - constructor.
Qed.

(** ** Initial conditions *)

Definition same_count (m : model) : Prop := length (m_x_0 m) = length (m_x m).

Lemma same_count_stable : forall A (c : cmd model A) m, stable c -> same_count m -> same_count (fst (c m)).
Proof. intros A c m Hc Hm. destruct (Hc m) as [H1 [_ H2]]. unfold same_count. congruence. Qed.

Lemma same_count_include_state : forall var f x_0 m,
    length x_0 = length var -> same_count m -> same_count (fst (include_state var f x_0 m)).
Proof.
  intros var f x_0 m Hlen Hm.
  assert (Hl : forall v m0, m_x (fst (include_state_loop v m0)) = m_x m0 /\
                            m_x_0 (fst (include_state_loop v m0)) = m_x_0 m0).
  { induction v as [|a v IH]; intros m0; simpl; [split; reflexivity|].
    run. destruct (dhas sym_eqb a (m_ode m0)); [split; reflexivity|].
    destruct (IH (set_ode (dset sym_eqb a None (m_ode m0)) m0)) as [H1 H2]. split; assumption. }
  unfold include_state; run.
  set (m1 := set_x_0 _ _).
  assert (H1 : same_count m1).
  { unfold same_count, m1 in *; fields. rewrite !app_length. lia. }
  clearbody m1. destruct (Hl var m1) as [Hx Hx0].
  destruct (include_state_loop var m1) as [m2 [[]|e]]; simpl in *.
  - assert (H2 : same_count m2) by (unfold same_count in *; congruence).
    destruct f; [apply same_count_stable; [apply stable_include_equations | exact H2] | exact H2].
  - unfold same_count in *; congruence.
Qed.

Lemma same_count_step : forall same o m,
    keeps_initial_conditions o -> same_count m -> same_count (fst (model_step same o m)).
Proof.
  intros same o m Ho Hm. destruct o; cbn [model_step]; simpl in Ho; try contradiction.
  - apply same_count_include_state; assumption.
  - apply same_count_stable; [apply stable_include_equations | exact Hm].
  - apply same_count_stable; [apply stable_replace | exact Hm].
  - apply same_count_stable; [apply stable_include_algebraic | exact Hm].
  - apply same_count_stable; [apply stable_remove_algebraic | exact Hm].
  - apply same_count_stable; [apply stable_include_control | exact Hm].
  - apply same_count_stable; [apply stable_remove_control | exact Hm].
  - apply same_count_stable; [apply stable_parametrize | exact Hm].
  - apply same_count_stable; [apply stable_include_parameter | exact Hm].
  - apply same_count_stable; [apply stable_include_theta | exact Hm].
  - apply same_count_stable; [apply stable_remove_parameter | exact Hm].
  - apply same_count_stable; [apply stable_remove_theta | exact Hm].
  - unfold include_models. revert m Hm. induction others as [|other others IH]; intros m Hm; simpl; [exact Hm|].
    inversion Ho; subst.
    assert (Hs : same_count (fst (include_model other m))).
    { rewrite include_model_split.
      pose proof (same_count_include_state (m_x other) None (m_x_0 other) m H1 Hm) as Hs.
      unfold cbind at 1.
      destruct (include_state (m_x other) None (m_x_0 other) m) as [m1 [[]|e]]; simpl in Hs; [|exact Hs].
      apply same_count_stable; [apply stable_include_model_rest | exact Hs]. }
    destruct (include_model other m) as [m1 [[]|e]]; simpl in *; [apply IH; assumption | exact Hs].
  - apply same_count_stable; [apply stable_connect | exact Hm].
Qed.

Lemma same_count_history : forall same ops t tau,
    Forall keeps_initial_conditions ops ->
    let m := run_caught (model_step same) ops (new_model t tau) in
    length (m_x_0 m) = length (m_x m).
Proof.
  intros same ops t tau Hops.
  assert (H : forall m, same_count m -> Forall keeps_initial_conditions ops ->
                        same_count (run_caught (model_step same) ops m)).
  { clear Hops. induction ops as [|o ops IH]; intros m Hm Hops; [exact Hm|].
    inversion Hops; subst. simpl. apply IH; [apply same_count_step; assumption | assumption]. }
  apply H; [reflexivity | exact Hops].
Qed.

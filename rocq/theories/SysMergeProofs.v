(** Proofs about merging and copying models. *)
From Verif Require Import Base BaseProofs UtilModel UtilProofs ExprModel ExprProofs SysModel SysSpec SysProofs SysEqProofs SysCtlProofs.
Local Open Scope cmd_scope.

Lemma dset_middle : forall a (b : option expr) (d rest : dict sym (option expr)) v,
    ~ In a (map fst d) -> dset sym_eqb a b (d ++ (a, v) :: rest) = d ++ (a, b) :: rest.
Proof.
  intros a b d rest v H. induction d as [|[k w] d IH]; simpl.
  - unfold sym_eqb. rewrite Nat.eqb_refl. reflexivity.
  - destruct (sym_eqb a k) eqn:E.
    + apply sym_eqb_eq in E. subst. exfalso; apply H; left; reflexivity.
    + f_equal. apply IH. intros Hin; apply H; right; exact Hin.
Qed.

Lemma dupdate_fresh : forall x (f : list expr) (d : dict sym (option expr)),
    length f = length x -> NoDup x -> (forall s, In s x -> ~ In s (map fst d)) ->
    dupdate sym_eqb (d ++ map (fun s => (s, None)) x) (combine x (map Some f)) = d ++ combine x (map Some f).
Proof.
  unfold dupdate. induction x as [|a x IH]; intros [|b f] d Hl Hnd Hd; simpl in *; try discriminate; [reflexivity|].
  inversion Hnd; subst. rewrite dset_middle by (apply Hd; left; reflexivity).
  change (d ++ (a, Some b) :: map (fun s => (s, None)) x)
    with (d ++ [(a, Some b)] ++ map (fun s => (s, None)) x).
  rewrite app_assoc, IH.
  - rewrite <- app_assoc. reflexivity.
  - lia.
  - assumption.
  - intros s Hs Hin. rewrite map_app in Hin. apply in_app_or in Hin. destruct Hin as [Hin|[<-|[]]].
    + apply (Hd s); [right; exact Hs | exact Hin].
    + contradiction.
Qed.

Lemma ode_combine : forall (d : dict sym (option expr)),
    length (flat_map (fun o => match o with Some e => [e] | None => [] end) (dvals d)) = length d ->
    combine (map fst d) (map Some (flat_map (fun o => match o with Some e => [e] | None => [] end) (dvals d))) = d.
Proof.
  assert (Hle : forall d : dict sym (option expr),
    (length (flat_map (fun o => match o with Some e => [e] | None => [] end) (dvals d)) <= length d)%nat).
  { induction d as [|[k [e|]] d IH]; simpl in *; lia. }
  induction d as [|[k [e|]] d IH]; simpl; intros H; [reflexivity| |].
  - f_equal. apply IH. unfold dvals in *. lia.
  - specialize (Hle d). unfold dvals in *. lia.
Qed.

(** All of [o] appended to [m], before times are identified. *)
Definition appended (o m : model) : model :=
  mkModel (m_x m ++ m_x o) (m_x_0 m ++ m_x_0 o) (m_ode m ++ m_ode o)
          (m_y m ++ m_y o) (m_alg m ++ m_alg o)
          (m_u m ++ m_u o) (m_u_par m ++ m_u o) (m_u_expr m ++ map EVar (m_u o))
          (m_parametrized m) (m_p m ++ m_p o) (m_theta m ++ m_theta o) (m_t m) (m_tau m) (m_adjoint m).

Definition identified (o m : model) : model :=
  replaced [m_tau o] [EVar (m_tau m)] (replaced [m_t o] [EVar (m_t m)] (appended o m)).

(** The variables of [o] appended to [m], with its algebraic equations. *)
Definition declared (o m : model) : model :=
  mkModel (m_x m ++ m_x o) (m_x_0 m ++ m_x_0 o) (m_ode m ++ map (fun s => (s, None)) (m_x o))
          (m_y m ++ m_y o) (m_alg m ++ m_alg o)
          (m_u m ++ m_u o) (m_u_par m ++ m_u o) (m_u_expr m ++ map EVar (m_u o))
          (m_parametrized m) (m_p m ++ m_p o) (m_theta m ++ m_theta o) (m_t m) (m_tau m) (m_adjoint m).

Lemma include_state_none_run : forall var x_0 m,
    NoDup var -> (forall s, In s var -> ~ In s (dkeys (m_ode m))) ->
    include_state var None x_0 m = (with_states var x_0 m, Ok tt).
Proof.
  intros var x_0 m Hnd Hin. unfold include_state; run.
  rewrite include_state_loop_fresh; [|exact Hnd|exact Hin]. reflexivity.
Qed.

Lemma include_model_run : forall o m,
    in_step m -> in_step o -> (forall s, In s (m_x o) -> ~ In s (m_x m)) ->
    include_model o m =
    if (length (ode o) =? length (m_x o))%nat then (identified o m, Ok tt)
    else (declared o m, Raise AssertionError).
Proof.
  intros o m [Hk Hnd] [Hko Hndo] Hdis.
  assert (Hd : forall s, In s (m_x o) -> ~ In s (dkeys (m_ode m))).
  { intros s Hs. unfold dkeys. rewrite Hk. apply Hdis, Hs. }
  unfold include_model. unfold cbind at 1.
  rewrite (include_state_none_run (m_x o) (m_x_0 o) m Hndo Hd).
  unfold include_algebraic, include_control, include_parameter, include_theta; run.
  rewrite include_explicit_unfold. unfold alg_added, with_states; fields.
  match goal with |- context [include_equation_from_kwargs _ _ ?M] => change M with (declared o m) end.
  rewrite from_kwargs_eq.
  destruct (length (ode o) =? length (m_x o))%nat eqn:El; [|reflexivity].
  assert (Hall : forallb (fun s => dhas sym_eqb s (m_ode (declared o m))) (m_x o) = true).
  { apply forallb_forall. intros s Hs. apply (dhas_In _ sym_eqb_eq). unfold dkeys, declared; fields.
    rewrite map_app, map_map. apply in_or_app. right. simpl. rewrite map_id. exact Hs. }
  rewrite Hall. apply Nat.eqb_eq in El.
  assert (Ho : combine (m_x o) (map Some (ode o)) = m_ode o).
  { rewrite <- Hko. unfold ode. apply ode_combine. fold (ode o). rewrite El, <- Hko, map_length. reflexivity. }
  assert (Hup : dupdate sym_eqb (m_ode (declared o m)) (combine (m_x o) (map Some (ode o))) = m_ode m ++ m_ode o).
  { unfold declared; fields. rewrite dupdate_fresh; [rewrite Ho; reflexivity | exact El | exact Hndo|].
    intros s Hs. rewrite Hk. apply Hdis, Hs. }
  rewrite Hup. change (set_ode (m_ode m ++ m_ode o) (declared o m)) with (appended o m).
  cbv beta iota. rewrite replace_variable_eq. simpl (length [_] =? length [_])%nat. cbv iota.
  rewrite replace_variable_eq. reflexivity.
Qed.

Lemma include_model_success : forall o m m',
    in_step m -> in_step o -> include_model o m = (m', Ok tt) ->
    m' = identified o m /\ complete o /\ (forall s, In s (m_x o) -> ~ In s (m_x m)).
Proof.
  intros o m m' Hm Ho H.
  assert (Hdis : forall s, In s (m_x o) -> ~ In s (m_x m)).
  { pose proof H as H0. rewrite include_model_split in H0. apply cbind_ok in H0.
    destruct H0 as [m1 [[] [H1 _]]]. apply include_state_ok in H1. destruct H1 as [_ [H1 _]].
    intros s Hs. specialize (H1 s Hs). unfold dkeys in H1. destruct Hm as [Hk _]. rewrite Hk in H1. exact H1. }
  rewrite include_model_run in H by assumption.
  destruct (Nat.eqb_spec (length (ode o)) (length (m_x o))) as [El|]; [|discriminate].
  injection H as <-. split; [reflexivity|]. split; [|exact Hdis].
  exact (proj1 (readback_length o Ho) El).
Qed.

Lemma include_model_shared : forall o m s,
    in_step m -> In s (m_x o) -> In s (m_x m) -> snd (include_model o m) = Raise ValueError.
Proof.
  intros o m s [Hk _] Ho Hm. unfold include_model. unfold cbind at 1.
  unfold include_state; run.
  match goal with |- context [include_state_loop (m_x o) ?M] => set (m1 := M) end.
  destruct (include_state_loop (m_x o) m1) as [m2 [[]|e]] eqn:E.
  - apply include_state_loop_ok in E. destruct E as [_ [_ Hin]]. exfalso.
    apply (Hin s Ho). unfold dkeys, m1; fields. rewrite Hk. exact Hm.
  - apply include_state_loop_err in E. subst e. reflexivity.
Qed.

Lemma in_step_identified : forall o m,
    in_step m -> in_step o -> (forall s, In s (m_x o) -> ~ In s (m_x m)) -> in_step (identified o m).
Proof.
  intros o m [Hk Hnd] [Hko Hndo] Hdis. unfold in_step, identified, replaced, appended; fields.
  assert (E : forall d v w v' w', map fst (subst_ode (subst_ode d v w) v' w') = map fst d)
    by (intros; rewrite <- dkeys_fst, !subst_ode_keys; reflexivity).
  rewrite E, map_app, Hk, Hko. split; [reflexivity|].
  apply NoDup_app_intro; try assumption. intros a Ha Hb. exact (Hdis a Hb Ha).
Qed.

(** ** Solutions *)

Lemma solves_appended : forall F env dx o m,
    solves F env dx (appended o m) <-> solves F env dx m /\ solves F env dx o.
Proof.
  intros F env dx o m. unfold solves, appended; fields. split.
  - intros [H1 H2]. split; split; intros; [eapply H1 | eapply H2 | eapply H1 | eapply H2];
      apply in_or_app; try (left; eassumption); right; eassumption.
  - intros [[H1 H2] [H3 H4]]. split.
    + intros s e Hin. apply in_app_or in Hin. destruct Hin; [apply H1 | apply H3]; assumption.
    + intros e Hin. apply in_app_or in Hin. destruct Hin; [apply H2 | apply H4]; assumption.
Qed.

Lemma solves_ext : forall F env env' dx m,
    (forall s, (env s = env' s) \/ equations_free_of m s) ->
    solves F env dx m <-> solves F env' dx m.
Proof.
  intros F env env' dx m H.
  assert (He : forall k e, In (k, Some e) (m_ode m) -> eval F env e = eval F env' e).
  { intros k e Hin. apply eval_ext. intros s Hs. destruct (H s) as [E|[Hf _]]; [exact E|].
    exfalso. exact (Hf k e Hin Hs). }
  assert (Ha : forall e, In e (m_alg m) -> eval F env e = eval F env' e).
  { intros e Hin. apply eval_ext. intros s Hs. destruct (H s) as [E|[_ Hf]]; [exact E|].
    exfalso. exact (Hf e Hin Hs). }
  unfold solves. split; intros [H1 H2]; split.
  - intros s e Hin. rewrite <- (He s e Hin). apply H1, Hin.
  - intros e Hin. rewrite <- (Ha e Hin). apply H2, Hin.
  - intros s e Hin. rewrite (He s e Hin). apply H1, Hin.
  - intros e Hin. rewrite (Ha e Hin). apply H2, Hin.
Qed.

Lemma solves_identified : forall F env dx o m,
    own_time (m_t m) (m_tau m) m o ->
    solves F env dx (identified o m) <->
    solves F env dx m /\ solves F (at_times env m o) dx o.
Proof.
  intros F env dx o m [Hf1 [Hf2 [Ht1 [Ht2 [Ht3 Ht4]]]]]. unfold identified.
  rewrite !solves_replaced, solves_appended. cbn [map eval].
  set (env3 := assign (assign env [m_tau o] [env (m_tau m)]) [m_t o]
                 [assign env [m_tau o] [env (m_tau m)] (m_t m)]).
  assert (E : forall s, env3 s = at_times env m o s).
  { intros s. unfold env3, at_times. cbn [assign].
    destruct (Nat.eq_dec (m_t m) (m_tau o)) as [X|_]; [exfalso; apply Ht3; symmetry; exact X|].
    destruct (Nat.eq_dec s (m_t o)); reflexivity. }
  rewrite (solves_ext F env3 env dx m).
  2:{ intros s. rewrite E. unfold at_times; cbn [assign].
      destruct (Nat.eq_dec s (m_t o)) as [->|_]; [right; exact Hf1|].
      destruct (Nat.eq_dec s (m_tau o)) as [->|_]; [right; exact Hf2 | left; reflexivity]. }
  rewrite (solves_ext F env3 (at_times env m o) dx o); [reflexivity|].
  intros s; left; apply E.
Qed.

Lemma equations_free_replaced : forall a b m s,
    equations_free_of m s -> s <> b -> equations_free_of (replaced [a] [EVar b] m) s.
Proof.
  intros a b m s [H1 H2] Hb.
  assert (Hs : forall e, ~ mentions e s -> ~ mentions (substitute e [a] [EVar b]) s).
  { intros e He Hin. unfold mentions in *. apply symbols_substitute_In in Hin.
    destruct Hin as [Hin|[d [[<-|[]] Hin]]]; [contradiction|].
    destruct Hin as [E|[]]. apply Hb; symmetry; exact E. }
  unfold equations_free_of, replaced, subst_ode, subst_vec; fields. split.
  - intros k e Hin. apply in_map_iff in Hin. destruct Hin as [[k' [e'|]] [He Hin]]; simpl in He; [|discriminate].
    injection He as _ <-. apply Hs. exact (H1 k' e' Hin).
  - intros e Hin. apply in_map_iff in Hin. destruct Hin as [e' [<- Hin]]. apply Hs. exact (H2 e' Hin).
Qed.

Lemma equations_free_identified : forall o m s,
    equations_free_of m s -> equations_free_of o s -> s <> m_t m -> s <> m_tau m ->
    equations_free_of (identified o m) s.
Proof.
  intros o m s [H1 H2] [H3 H4] Ht Htau. unfold identified.
  apply equations_free_replaced; [|exact Htau]. apply equations_free_replaced; [|exact Ht].
  unfold equations_free_of, appended; fields. split.
  - intros k e Hin. apply in_app_or in Hin. destruct Hin; [eapply H1 | eapply H3]; eassumption.
  - intros e Hin. apply in_app_or in Hin. destruct Hin; [apply H2 | apply H4]; assumption.
Qed.

Lemma own_times_identified : forall o m others,
    own_times m (o :: others) -> own_times (identified o m) others.
Proof.
  intros o m others [H1 H2]. inversion H1 as [|? ? _ H4]; subst. inversion H2 as [|? ? H6 Hord]; subst.
  assert (Et : m_t (identified o m) = m_t m) by reflexivity.
  assert (Eu : m_tau (identified o m) = m_tau m) by reflexivity.
  unfold own_times. rewrite Et, Eu. split; [|exact Hord].
  rewrite Forall_forall in *. intros o' Ho'.
  destruct (H4 o' Ho') as [A1 [A2 [A3 [A4 [A5 A6]]]]].
  destruct (H6 o' Ho') as [B1 [B2 _]].
  repeat split; try assumption; apply equations_free_identified; assumption.
Qed.

Lemma include_models_solves : forall F env dx others m m',
    in_step m -> Forall in_step others -> own_times m others ->
    include_models others m = (m', Ok tt) ->
    (solves F env dx m' <->
     solves F env dx m /\ Forall (fun o => solves F (at_times env m o) dx o) others).
Proof.
  intros F env dx others. unfold include_models.
  induction others as [|o others IH]; intros m m' Hm Hos Hown H; simpl in H.
  - injection H as <-. split; [intros Hs; split; [exact Hs | constructor] | intros [Hs _]; exact Hs].
  - destruct (include_model o m) as [m1 [[]|e]] eqn:E; [|discriminate].
    inversion Hos; subst.
    pose proof (include_model_success o m m1 Hm H2 E) as [E1 [_ Hdis]]. subst m1.
    pose proof (in_step_identified o m Hm H2 Hdis) as Hm1.
    rewrite (IH (identified o m) m' Hm1 H3 (own_times_identified o m others Hown) H).
    destruct Hown as [Hown _]. inversion Hown; subst.
    rewrite (solves_identified F env dx o m H4).
    split.
    + intros [[A B] C]. split; [exact A|]. constructor; [exact B | exact C].
    + intros [A B]. inversion B; subst. split; [split; assumption | assumption].
Qed.

Lemma include_models_vectors : forall others m m',
    in_step m -> Forall in_step others ->
    include_models others m = (m', Ok tt) ->
    m_x m' = m_x m ++ flat_map m_x others /\
    m_x_0 m' = m_x_0 m ++ flat_map m_x_0 others /\
    m_y m' = m_y m ++ flat_map m_y others /\
    m_u m' = m_u m ++ flat_map m_u others /\
    m_u_par m' = m_u_par m ++ flat_map m_u others /\
    m_p m' = m_p m ++ flat_map m_p others /\
    m_theta m' = m_theta m ++ flat_map m_theta others /\
    length (m_alg m') = (length (m_alg m) + length (flat_map m_alg others))%nat /\
    length (m_ode m') = (length (m_ode m) + length (flat_map m_ode others))%nat /\
    m_t m' = m_t m /\ m_tau m' = m_tau m /\ in_step m' /\ Forall complete others.
Proof.
  intros others. unfold include_models.
  induction others as [|o others IH]; intros m m' Hm Hos H; simpl in H.
  - injection H as <-. simpl. rewrite !app_nil_r. repeat split; try lia; try apply Hm. constructor.
  - destruct (include_model o m) as [m1 [[]|e]] eqn:E; [|discriminate].
    inversion Hos; subst.
    pose proof (include_model_success o m m1 Hm H2 E) as [E1 [Hc Hdis]]. subst m1.
    pose proof (in_step_identified o m Hm H2 Hdis) as Hm1.
    destruct (IH (identified o m) m' Hm1 H3 H) as [A1 [A2 [A3 [A4 [A5 [A6 [A7 [A8 [A9 [A10 [A11 [A12 A13]]]]]]]]]]]].
    unfold identified, replaced, appended, subst_vec, subst_ode in *; fields. simpl flat_map.
    rewrite !map_length, app_length in *. rewrite <- !app_assoc in *.
    repeat split; try assumption; try (apply A12); rewrite ?app_length; try lia.
    constructor; assumption.
Qed.

(** ** Deep copies *)

Lemma assign_app : forall env v1 v2 q1 q2 s,
    length v1 = length q1 ->
    assign env (v1 ++ v2) (q1 ++ q2) s = assign (assign env v2 q2) v1 q1 s.
Proof.
  intros env v1; induction v1 as [|a v1 IH]; intros v2 [|b q1] q2 s H; simpl in *; try discriminate; [reflexivity|].
  destruct (Nat.eq_dec s a); [reflexivity|]. apply IH. lia.
Qed.

Definition rename_all (l : list (list sym * list sym)) (e : expr) : expr :=
  fold_left (fun e vw => substitute e (fst vw) (map EVar (snd vw))) l e.

Lemma assign_ext : forall env env' v q q' s,
    (forall s, env s = env' s) -> q = q' -> assign env v q s = assign env' v q' s.
Proof.
  intros env env' v q q' s H <-. revert q. induction v as [|a v IH]; intros [|b q]; simpl; try apply H.
  destruct (Nat.eq_dec s a); [reflexivity | apply IH].
Qed.

Lemma eval_rename_all : forall F env l e,
    Forall (fun vw => length (fst vw) = length (snd vw)) l ->
    (forall s, In s (flat_map snd l) -> ~ In s (flat_map fst l)) ->
    eval F env (rename_all l e) = eval F (assign env (flat_map fst l) (map env (flat_map snd l))) e.
Proof.
  intros F env l. induction l as [|[v w] l IH]; intros e Hl Hd; simpl.
  - apply eval_ext. intros; reflexivity.
  - inversion Hl; subst. simpl in H1. rewrite IH.
    2:{ assumption. }
    2:{ intros s Hs Hv. apply (Hd s); simpl; apply in_or_app; right; assumption. }
    rewrite eval_assign. apply eval_ext. intros s _.
    rewrite map_app, assign_app by (rewrite map_length; exact H1).
    apply assign_ext; [reflexivity|]. rewrite map_map. simpl. apply map_ext_in. intros a Ha.
    apply assign_notin. intros Hv. apply (Hd a); simpl; apply in_or_app; [left; exact Ha | right; exact Hv].
Qed.

Lemma each_include_algebraic : forall l m,
    each (fun y => include_algebraic [y] None) l m = (set_y (m_y m ++ l) m, Ok tt).
Proof.
  induction l as [|a l IH]; intros m; simpl; run.
  - rewrite app_nil_r. destruct m; reflexivity.
  - unfold include_algebraic; run. rewrite IH; fields. rewrite <- app_assoc. reflexivity.
Qed.
Lemma each_include_control : forall l m,
    each (fun u => include_control [u]) l m =
    (set_u_par (m_u_par m ++ l) (set_u_expr (m_u_expr m ++ map EVar l) (set_u (m_u m ++ l) m)), Ok tt).
Proof.
  induction l as [|a l IH]; intros m; simpl; run.
  - rewrite !app_nil_r. destruct m; reflexivity.
  - unfold include_control; run. rewrite IH; fields. rewrite <- !app_assoc. reflexivity.
Qed.
Lemma each_include_parameter : forall l m,
    each (fun p => include_parameter [p]) l m = (set_p (m_p m ++ l) m, Ok tt).
Proof.
  induction l as [|a l IH]; intros m; simpl; run.
  - rewrite app_nil_r. destruct m; reflexivity.
  - unfold include_parameter; run. rewrite IH; fields. rewrite <- app_assoc. reflexivity.
Qed.
Lemma each_include_theta : forall l m,
    each (fun p => include_theta [p]) l m = (set_theta (m_theta m ++ l) m, Ok tt).
Proof.
  induction l as [|a l IH]; intros m; simpl; run.
  - rewrite app_nil_r. destruct m; reflexivity.
  - unfold include_theta; run. rewrite IH; fields. rewrite <- app_assoc. reflexivity.
Qed.
Lemma create_states_run : forall xs x_0s m,
    length xs = length x_0s -> NoDup xs -> (forall s, In s xs -> ~ In s (dkeys (m_ode m))) ->
    create_states xs x_0s m = (with_states xs x_0s m, Ok tt).
Proof.
  induction xs as [|a xs IH]; intros [|b x_0s] m Hl Hnd Hin; simpl in *; try discriminate; run.
  - unfold with_states; simpl. rewrite !app_nil_r. destruct m; reflexivity.
  - inversion Hnd; subst. rewrite include_state_none_run.
    + rewrite IH; [|lia|assumption|].
      * unfold with_states; fields. rewrite <- !app_assoc. reflexivity.
      * intros s Hs. unfold with_states, dkeys; fields. rewrite map_app. intros Hk.
        apply in_app_or in Hk. destruct Hk as [Hk|[<-|[]]]; [|contradiction].
        apply (Hin s); [right; exact Hs | exact Hk].
    + constructor; [intros [] | constructor].
    + intros s [<-|[]]. apply Hin; left; reflexivity.
Qed.

(** The copy before its equations are set. *)
Definition skeleton (f : fresh) : model :=
  mkModel (f_x f) (f_x_0 f) (map (fun s => (s, None)) (f_x f)) (f_y f) []
          (f_u f) (f_u f) (map EVar (f_u f)) [] (f_p f) (f_theta f) (f_t f) (f_tau f) false.

Definition renamings (f : fresh) (m : model) : list (list sym * list sym) :=
  [(m_x m, f_x f); (m_y m, f_y f); (m_u m, f_u f); (m_p m, f_p f); (m_theta m, f_theta f); (m_u_par m, f_u_par f)].

Definition rename_model (l : list (list sym * list sym)) (m : model) : model :=
  fold_left (fun m vw => replaced (fst vw) (map EVar (snd vw)) m) l m.

Lemma deepcopy_run : forall f m,
    fresh_for f m ->
    get_deepcopy f m =
    match include_equations [] (Some (ode m)) None (Some (m_alg m)) (skeleton f) with
    | (c, Ok _) => Ok (set_adjoint (m_adjoint m)
          (rename_model (renamings f m) (set_u_expr (m_u_expr m) (set_u_par (m_u_par m) c))))
    | (_, Raise e) => Raise e
    end.
Proof.
  intros f m [H1 [H2 [H3 [H4 [H5 [H6 [H7 [Hnd Hdis]]]]]]]].
  unfold get_deepcopy. unfold cbind at 1.
  rewrite create_states_run; [|congruence| |intros s Hs []].
  2:{ unfold new_symbols in Hnd. apply NoDup_app_l in Hnd. exact Hnd. }
  unfold cbind at 1. rewrite each_include_algebraic.
  unfold cbind at 1. rewrite each_include_control.
  unfold cbind at 1. rewrite each_include_parameter.
  unfold cbind at 1. rewrite each_include_theta.
  unfold with_states; fields. unfold cbind at 1.
  match goal with |- context [include_equations _ _ _ _ ?M] => change M with (skeleton f) end.
  destruct (include_equations [] (Some (ode m)) None (Some (m_alg m)) (skeleton f)) as [c [[]|e]]; [|reflexivity].
  run.
  rewrite replace_variable_eq, map_length, H1, Nat.eqb_refl; cbv iota beta.
  rewrite replace_variable_eq, map_length, H3, Nat.eqb_refl; cbv iota beta.
  rewrite replace_variable_eq, map_length, H4, Nat.eqb_refl; cbv iota beta.
  rewrite replace_variable_eq, map_length, H5, Nat.eqb_refl; cbv iota beta.
  rewrite replace_variable_eq, map_length, H6, Nat.eqb_refl; cbv iota beta.
  rewrite replace_variable_eq, map_length, H7, Nat.eqb_refl; cbv iota beta.
  reflexivity.
Qed.

Lemma rename_model_vectors : forall l m,
    same_variables (rename_model l m) m /\ m_alg (rename_model l m) = map (rename_all l) (m_alg m) /\
    m_u_expr (rename_model l m) = map (rename_all l) (m_u_expr m) /\
    m_ode (rename_model l m) =
    map (fun kv => (fst kv, match snd kv with Some e => Some (rename_all l e) | None => None end)) (m_ode m).
Proof.
  induction l as [|[v w] l IH]; intros m; simpl.
  - split; [repeat split|]. unfold rename_all; simpl. rewrite !map_id. repeat split.
    rewrite <- (map_id (m_ode m)) at 1. apply map_ext. intros [k [e|]]; reflexivity.
  - destruct (IH (replaced v (map EVar w) m)) as [A [B [C D]]].
    split; [exact A|].
    rewrite B, C, D. unfold replaced, subst_vec, subst_ode; fields. rewrite !map_map. repeat split.
    apply map_ext. intros [k [e|]]; reflexivity.
Qed.

Lemma in_step_skeleton : forall f m, fresh_for f m -> in_step (skeleton f).
Proof.
  intros f m [_ [_ [_ [_ [_ [_ [_ [Hnd _]]]]]]]]. split; cbn [skeleton m_ode m_x].
  - rewrite map_map; simpl. apply map_id.
  - unfold new_symbols in Hnd. apply NoDup_app_l in Hnd. exact Hnd.
Qed.

Lemma renamings_lengths : forall f m, fresh_for f m ->
    Forall (fun vw => length (fst vw) = length (snd vw)) (renamings f m).
Proof.
  intros f m [H1 [_ [H3 [H4 [H5 [H6 [H7 _]]]]]]]. unfold renamings.
  repeat constructor; simpl; congruence.
Qed.

Lemma renamings_flat : forall f m,
    flat_map fst (renamings f m) = old_symbols m /\ flat_map snd (renamings f m) = new_symbols f.
Proof. intros f m. unfold renamings, old_symbols, new_symbols; simpl. rewrite !app_nil_r. split; reflexivity. Qed.

Lemma eval_renamings : forall F env f m e,
    fresh_for f m -> evaluates_as F env (renamed env f m) e (rename_all (renamings f m) e).
Proof.
  intros F env f m e H. unfold evaluates_as, renamed.
  destruct (renamings_flat f m) as [E1 E2]. rewrite <- E1, <- E2.
  apply eval_rename_all; [apply renamings_lengths, H|]. rewrite E1, E2. apply H.
Qed.

Lemma deepcopy_complete_run : forall f m,
    fresh_for f m -> in_step m -> complete m -> m_x m <> [] ->
    include_equations [] (Some (ode m)) None (Some (m_alg m)) (skeleton f) =
    (set_ode (combine (f_x f) (map Some (ode m))) (set_alg (m_alg m) (skeleton f)), Ok tt).
Proof.
  intros f m Hf Hm Hc Hx.
  assert (Hl : length (ode m) = length (f_x f)).
  { destruct Hf as [H1 _]. rewrite H1. exact (proj2 (readback_length m Hm) Hc). }
  pose proof (in_step_skeleton f m Hf) as Hs.
  assert (Hsplit : include_equations [] (Some (ode m)) None (Some (m_alg m)) (skeleton f) =
                   include_equations [] (Some (ode m)) None None (set_alg (m_alg m) (skeleton f))).
  { unfold include_equations, include_equations_alg; run. simpl. rewrite !app_nil_r. reflexivity. }
  rewrite Hsplit, guess_unfold.
  assert (Hs' : in_step (set_alg (m_alg m) (skeleton f))) by exact Hs.
  destruct (f_x f) as [|s0 rest] eqn:Ef.
  { exfalso. apply Hx. destruct Hf as [H1 _]. rewrite Ef in H1. destruct (m_x m); [reflexivity | discriminate]. }
  rewrite (guess_first_unset _ s0 rest); [|exact Hs'|cbn; exact Ef| |rewrite Hl; simpl; lia].
  2:{ unfold equation_of; cbn. rewrite Ef. left; reflexivity. }
  cbn [set_alg m_x skeleton]. rewrite Ef, Hl, firstn_all.
  rewrite from_kwargs_eq. rewrite (proj2 (Nat.eqb_eq _ _) Hl).
  assert (Hall : forallb (fun s => dhas sym_eqb s (m_ode (set_alg (m_alg m) (skeleton f)))) (s0 :: rest) = true).
  { apply forallb_forall. intros s Hin. apply (dhas_In _ sym_eqb_eq). destruct Hs as [Hk _].
    change (In s (map fst (m_ode (skeleton f)))). rewrite Hk. cbn. rewrite Ef. exact Hin. }
  rewrite Hall. f_equal. f_equal. cbn [set_alg m_ode skeleton]. rewrite Ef.
  apply (dupdate_fresh (s0 :: rest) (ode m) []); [exact Hl| |intros s _ []].
  destruct Hs as [_ Hnd]. cbn in Hnd. rewrite Ef in Hnd. exact Hnd.
Qed.

Lemma deepcopy_equations : forall f m c,
    fresh_for f m -> in_step m -> complete m ->
    m_alg c = map (rename_all (renamings f m)) (m_alg m) ->
    m_u_expr c = map (rename_all (renamings f m)) (m_u_expr m) ->
    m_ode c = combine (f_x f) (map (fun e => Some (rename_all (renamings f m) e)) (ode m)) ->
    forall F env,
      Forall2 (same_equation F env (renamed env f m)) (m_ode m) (m_ode c) /\
      Forall2 (evaluates_as F env (renamed env f m)) (m_alg m) (m_alg c) /\
      Forall2 (evaluates_as F env (renamed env f m)) (m_u_expr m) (m_u_expr c).
Proof.
  intros f m c Hf Hm Hc B C D F env. rewrite B, C, D.
  assert (Hl : length (ode m) = length (f_x f)).
  { destruct Hf as [H1 _]. rewrite H1. exact (proj2 (readback_length m Hm) Hc). }
  split; [|split].
  - assert (Ho : combine (m_x m) (map Some (ode m)) = m_ode m).
    { destruct Hm as [Hk Hnd]. rewrite <- Hk. unfold ode. apply ode_combine.
      fold (ode m). apply (readback_length m (conj Hk Hnd)) in Hc. rewrite Hc, <- Hk, map_length. reflexivity. }
    rewrite <- Ho. assert (H1 : length (f_x f) = length (m_x m)) by apply Hf.
    revert Hl H1. clear - Hf. generalize (f_x f) as xs, (m_x m) as ys.
    induction (ode m) as [|e l IH]; intros [|x xs] [|y ys] Hl H1; simpl in *; try discriminate; constructor.
    + exists e, (rename_all (renamings f m) e). split; [reflexivity|]. split; [reflexivity|].
      apply eval_renamings, Hf.
    + apply IH; lia.
  - clear - Hf. induction (m_alg m) as [|e l IH]; simpl; constructor; [apply eval_renamings, Hf | exact IH].
  - clear - Hf. induction (m_u_expr m) as [|e l IH]; simpl; constructor; [apply eval_renamings, Hf | exact IH].
Qed.

Lemma combine_map_some : forall (xs : list sym) (g : expr -> expr) l,
    map (fun kv : sym * option expr => (fst kv, match snd kv with Some e => Some (g e) | None => None end))
        (combine xs (map Some l)) = combine xs (map (fun e => Some (g e)) l).
Proof. induction xs as [|x xs IH]; intros g [|e l]; simpl; f_equal; apply IH. Qed.

Lemma combine_keys_map : forall (xs : list sym) (g : expr -> option expr) l,
    length l = length xs -> map fst (combine xs (map g l)) = xs.
Proof. induction xs as [|x xs IH]; intros g [|e l] H; simpl in *; try discriminate; f_equal; apply IH; lia. Qed.

Lemma deepcopy_ok : forall f m,
    fresh_for f m -> in_step m -> complete m -> m_x m <> [] ->
    exists c, get_deepcopy f m = Ok c /\
      m_x c = f_x f /\ m_x_0 c = f_x_0 f /\ m_y c = f_y f /\ m_u c = f_u f /\
      m_p c = f_p f /\ m_theta c = f_theta f /\ m_t c = f_t f /\ m_tau c = f_tau f /\
      in_step c /\
      (forall F env,
         Forall2 (same_equation F env (renamed env f m)) (m_ode m) (m_ode c) /\
         Forall2 (evaluates_as F env (renamed env f m)) (m_alg m) (m_alg c) /\
         Forall2 (evaluates_as F env (renamed env f m)) (m_u_expr m) (m_u_expr c)).
Proof.
  intros f m Hf Hm Hc Hx. rewrite (deepcopy_run f m Hf), (deepcopy_complete_run f m Hf Hm Hc Hx).
  pose proof (rename_model_vectors (renamings f m)
    (set_u_expr (m_u_expr m) (set_u_par (m_u_par m)
       (set_ode (combine (f_x f) (map Some (ode m))) (set_alg (m_alg m) (skeleton f)))))) as H.
  revert H. generalize (rename_model (renamings f m)
    (set_u_expr (m_u_expr m) (set_u_par (m_u_par m)
       (set_ode (combine (f_x f) (map Some (ode m))) (set_alg (m_alg m) (skeleton f)))))) as c1.
  intros c1 [[A1 [A2 [A3 [A4 [A5 [A6 [A7 [A8 A9]]]]]]]] [B [C D]]].
  unfold skeleton in *. cbn [set_x set_x_0 set_ode set_y set_alg set_u set_u_par set_u_expr
                    set_parametrized set_p set_theta set_adjoint
                    m_x m_x_0 m_ode m_y m_alg m_u m_u_par m_u_expr m_parametrized m_p m_theta
                    m_t m_tau m_adjoint] in A1, A2, A3, A4, A5, A6, A7, A8, A9, B, C, D.
  rewrite combine_map_some in D.
  exists (set_adjoint (m_adjoint m) c1). split; [reflexivity|].
  assert (Hl : length (ode m) = length (f_x f)).
  { destruct Hf as [H1 _]. rewrite H1. exact (proj2 (readback_length m Hm) Hc). }
  split; [exact A1|]. split; [exact A2|]. split; [exact A3|]. split; [exact A4|].
  split; [exact A6|]. split; [exact A7|]. split; [exact A8|]. split; [exact A9|].
  split.
  - split.
    + change (map fst (m_ode c1) = m_x c1). rewrite D, A1. apply combine_keys_map, Hl.
    + change (NoDup (m_x c1)). rewrite A1. apply (in_step_skeleton f m Hf).
  - apply deepcopy_equations; assumption.
Qed.

Lemma deepcopy_keeps_u_par : forall f m c,
    fresh_for f m -> get_deepcopy f m = Ok c -> m_u_par c = m_u_par m.
Proof.
  intros f m c Hf H. rewrite (deepcopy_run f m Hf) in H.
  destruct (include_equations _ _ _ _ _) as [c0 [[]|e]]; [|discriminate].
  pose proof (proj1 (rename_model_vectors (renamings f m)
                       (set_u_expr (m_u_expr m) (set_u_par (m_u_par m) c0)))) as A.
  revert H A. generalize (rename_model (renamings f m) (set_u_expr (m_u_expr m) (set_u_par (m_u_par m) c0))) as c1.
  intros c1 H [_ [_ [_ [_ [A5 _]]]]]. injection H as <-. exact A5.
Qed.

Lemma deepcopy_no_states : forall f m,
    fresh_for f m -> m_x m = [] -> get_deepcopy f m = Raise ValueError.
Proof.
  intros f m Hf Hx. rewrite (deepcopy_run f m Hf).
  assert (E : f_x f = []).
  { destruct Hf as [H1 _]. rewrite Hx in H1. destruct (f_x f); [reflexivity | discriminate]. }
  unfold include_equations, include_equations_alg; run. unfold guess_states. cbn [set_alg m_ode skeleton].
  rewrite E. reflexivity.
Qed.

(** A history with equations, substitution, removal and a parametrised control. *)
Definition example_history : list model_op :=
  [ MIncludeState [10; 11] (Some [EBin OAdd (EVar 10) (EVar 20); EVar 1]) [12; 13];
    MIncludeControl [20; 21];
    MIncludeState [14] None [15];
    MIncludeEquations [EqDer [14] [EBin OMul (EVar 14) (EVar 21)]; EqSX (EVar 30) (EVar 10)]
                      None None None;
    MIncludeAlgebraic [30] None;
    MParametrizeControl [20] [EBin OMul (EVar 25) (EVar 10)] (Some [25]);
    MRemoveState [11] ].
Definition example_model : model := Eval vm_compute in run_caught (model_step (fun _ _ => false)) example_history (new_model 1 2).

Lemma w_C13_replacement_keeps_states :
  forall original replacement m,
    let m' := fst (replace_variable original replacement m) in
    m_x m' = m_x m /\ map fst (m_ode m') = map fst (m_ode m).
Proof.
  intros o r m. destruct (replace_frame o r m) as [[H1 _] H2]. split; [exact H1 | exact H2].
Qed.

Lemma w_C13_duplicates_rejected :
  forall var x_0 m,
    in_step m ->
    ((NoDup var /\ forall s, In s var -> ~ In s (m_x m)) ->
       exists m', include_state var None x_0 m = (m', Ok tt) /\
         m_x m' = m_x m ++ var /\ m_x_0 m' = m_x_0 m ++ x_0 /\
         (forall s, In s var -> equation_of m' s None) /\ others_keep var m m') /\
    (~ (NoDup var /\ forall s, In s var -> ~ In s (m_x m)) ->
       snd (include_state var None x_0 m) = Raise ValueError).
Proof.
  intros var x_0 m [Hk Hnd]. split.
  - intros [H1 H2]. exists (with_states var x_0 m). split.
    { apply include_state_none_run; [exact H1|]. unfold dkeys. rewrite Hk. exact H2. }
    split; [reflexivity|]. split; [reflexivity|]. split.
    + intros s Hs. unfold equation_of, with_states; fields. apply in_or_app. right.
      apply in_map_iff. exists s. split; [reflexivity | exact Hs].
    + intros s e Hs. unfold equation_of, with_states; fields. split.
      * intros Hin. apply in_app_or in Hin. destruct Hin as [Hin|Hin]; [exact Hin|].
        apply in_map_iff in Hin. destruct Hin as [s' [E Hs']]. injection E as <- _. contradiction.
      * intros Hin. apply in_or_app; left; exact Hin.
  - intros Hn. unfold include_state; run.
    match goal with |- context [include_state_loop var ?M] => set (m1 := M) end.
    destruct (include_state_loop var m1) as [m2 [[]|e]] eqn:E.
    + apply include_state_loop_ok in E. destruct E as [_ [E1 E2]]. exfalso. apply Hn.
      split; [exact E1|]. intros s Hs. specialize (E2 s Hs). unfold dkeys, m1 in E2; fields.
      rewrite Hk in E2. exact E2.
    + apply include_state_loop_err in E. subst e. reflexivity.
Qed.

Lemma w_C13_removal :
  forall var m m',
    in_step m -> remove_state var m = (m', Ok tt) ->
    in_step m' /\ (forall s, In s (m_x m') <-> In s (m_x m) /\ ~ In s var) /\
    (forall s, In s var -> In s (m_x m)) /\ others_keep var m m'.
Proof.
  intros var m m' Hm H. destruct (remove_state_ok var m m' Hm H) as [H1 [H2 [H3 [H4 _]]]].
  split; [exact H1|]. split; [exact H2|]. split; [exact H3|].
  intros s e Hs. unfold equation_of. rewrite H4, filter_In. cbn [fst]. rewrite <- not_in_memb.
  split; [intros [A _]; exact A|]. intros A. split; [exact A|]. apply not_in_true, Hs.
Qed.

Lemma w_C13_rejected_include_atomic_refuted :
  exists same ops t tau var m,
    m = run_caught (model_step same) ops (new_model t tau) /\
    snd (include_state var None [] m) = Raise ValueError /\
    m_x (fst (include_state var None [] m)) = m_x m ++ var /\ var <> [].
Proof.
  exists (fun _ _ => false), [MIncludeState [5] None [6]], 1, 2, [5], (with_states [5] [6] (new_model 1 2)).
  repeat split. discriminate.
Qed.

Lemma w_C13_initial_conditions_after_removal_refuted :
  exists same ops t tau m,
    run_all (model_step same) ops (new_model t tau) = (m, Ok tt) /\
    length (m_x m) = 1 /\ length (m_x_0 m) = 2.
Proof.
  exists (fun _ _ => false), [MIncludeState [5; 7] None [6; 8]; MRemoveState [5]], 1, 2.
  eexists. split; [vm_compute; reflexivity|]. split; reflexivity.
Qed.

Lemma w_C14_named_states_refused :
  forall x f m,
    in_step m ->
    (length f <> length x ->
       include_equations [] (Some f) (Some x) None m = (m, Raise AssertionError)) /\
    (length f = length x -> (exists s, In s x /\ ~ In s (m_x m)) ->
       include_equations [] (Some f) (Some x) None m = (m, Raise KeyError)).
Proof.
  intros x f m Hm. split.
  - apply explicit_size_error.
  - intros Hl [s [H1 H2]]. eapply explicit_unknown_state; eassumption.
Qed.

Lemma w_C14_derivative_sizes_refuted :
  exists m m' : model,
    in_step m /\
    include_equations [EqDer [10] [EVar 1; EVar 2]; EqDer [11; 12] [EVar 3]] None None None m
      = (m', Ok tt) /\
    equation_of m' 11 (Some (EVar 2)) /\ equation_of m' 12 (Some (EVar 3)).
Proof.
  exists (with_states [10; 11; 12] [20; 21; 22] (new_model 1 2)).
  eexists. split; [|split; [vm_compute; reflexivity|]].
  - split; [reflexivity|]. repeat constructor; simpl; intuition discriminate.
  - unfold equation_of; simpl; auto.
Qed.

Lemma w_C14_guess_refused :
  forall m f,
    in_step m ->
    (forall s0 rest e, m_x m = s0 :: rest -> equation_of m s0 (Some e) ->
       include_equations [] (Some f) None None m = (m, Raise ValueError)) /\
    (m_x m = [] -> include_equations [] (Some f) None None m = (m, Raise ValueError)) /\
    ((length (m_x m) < length f)%nat ->
       exists e, include_equations [] (Some f) None None m = (m, Raise e)).
Proof.
  intros m f Hm. split; [|split].
  - intros s0 rest e Hx He. eapply guess_refused; eassumption.
  - apply guess_no_states, Hm.
  - apply guess_too_many, Hm.
Qed.

Lemma w_C14_states_without_equations :
  forall args x alg m,
    exists m', include_equations args None (Some x) alg m = (m', Raise ValueError) /\
      m_ode m' = m_ode m /\ same_variables m' m /\
      m_alg m' = m_alg m ++ match alg with Some a => a | None => [] end ++ residuals args.
Proof.
  intros args x alg m. destruct (states_without_equations args x alg m) as [l [E1 E2]].
  exists (alg_added l m). split; [exact E1|]. split; [reflexivity|]. split; [repeat split|].
  subst l. reflexivity.
Qed.

Lemma w_C14_read_back :
  forall m,
    in_step m ->
    Forall2 (fun s e => equation_of m s (Some e)) (filter (has_equation m) (m_x m)) (ode m) /\
    (length (ode m) = length (m_x m) <->
     forall s, In s (m_x m) -> exists e, equation_of m s (Some e)) /\
    ((forall s, In s (m_x m) -> exists e, equation_of m s (Some e)) ->
     Forall2 (fun s e => equation_of m s (Some e)) (m_x m) (ode m)).
Proof.
  intros m Hm. split; [apply readback, Hm|]. split; [apply readback_length, Hm|].
  apply readback_complete, Hm.
Qed.

Lemma w_C15_failed_removal_atomic_refuted :
  exists same ops t tau m,
    run_all (model_step same) ops (new_model t tau) = (m, Ok tt) /\
    In 20 (m_u m) /\
    snd (remove_control [20] m) = Raise ValueError /\
    ~ In 20 (m_u (fst (remove_control [20] m))).
Proof.
  exists (fun _ _ => false),
    [MIncludeControl [20; 21]; MParametrizeControl [20] [EVar 25] (Some [25])], 1, 2.
  eexists. split; [vm_compute; reflexivity|]. split; [left; reflexivity|]. split; [reflexivity|].
  simpl. intuition discriminate.
Qed.

Lemma w_C16_evaluates_at_replacement :
  forall F env original replacement m m',
    replace_variable original replacement m = (m', Ok tt) ->
    model_evaluates_as F env (assign env original (map (eval F env) replacement)) m m'.
Proof.
  intros F env o r m m' H. rewrite replace_variable_eq in H. destruct (_ =? _)%nat; [|discriminate].
  injection H as <-. apply replaced_evaluates.
Qed.

Lemma w_C16_fresh_unchanged :
  forall original replacement m,
    length original = length replacement ->
    (forall s, In s original -> free_of m s) ->
    replace_variable original replacement m = (m, Ok tt).
Proof.
  intros o r m Hl H. rewrite replace_variable_eq, (proj2 (Nat.eqb_eq _ _) Hl), replaced_fresh by exact H.
  reflexivity.
Qed.

Lemma w_C16_sizes_and_frame :
  forall original replacement m,
    (length original = length replacement ->
       snd (replace_variable original replacement m) = Ok tt) /\
    (length original <> length replacement ->
       replace_variable original replacement m = (m, Raise ValueError)) /\
    same_variables (fst (replace_variable original replacement m)) m.
Proof.
  intros o r m. split; [|split].
  - intros H. rewrite replace_variable_eq, (proj2 (Nat.eqb_eq _ _) H). reflexivity.
  - intros H. rewrite replace_variable_eq, (proj2 (Nat.eqb_neq _ _) H). reflexivity.
  - apply replace_frame.
Qed.

Lemma w_C17_bookkeeping :
  forall u e u_par m m',
    parametrize_control u e u_par m = (m', Ok tt) ->
    m_u_par m' = filter (not_in u) (m_u_par m) ++ match u_par with Some v => v | None => [] end /\
    (forall c, In c u -> control_is_parametrized c m' = true) /\
    (forall c, ~ In c u -> control_is_parametrized c m' = control_is_parametrized c m) /\
    is_parametrized m' = true /\
    m_x m' = m_x m /\ m_y m' = m_y m /\ m_u m' = m_u m /\ m_p m' = m_p m /\ m_theta m' = m_theta m.
Proof.
  intros u e up m m' H.
  assert (Hok : snd (parametrize_control u e up m) = Ok tt) by (rewrite H; reflexivity).
  apply parametrize_ok_iff in Hok. destruct Hok as [_ [_ [_ [c0 [Hc0 _]]]]].
  apply parametrize_result in H. subst m'. unfold parametrized_model, replaced, control_is_parametrized, is_parametrized; fields.
  split; [destruct up; reflexivity|]. split; [|split; [|split; [|repeat split]]].
  - intros c Hc. rewrite existsb_app. apply orb_true_iff. right.
    exact (proj2 (memb_spec _ _ sym_eqb_eq c u) Hc).
  - intros c Hc. rewrite existsb_app.
    assert (E : existsb (sym_eqb c) u = false).
    { destruct (existsb (sym_eqb c) u) eqn:E; [|reflexivity]. exfalso. apply Hc.
      exact (proj1 (memb_spec _ _ sym_eqb_eq c u) E). }
    rewrite E. apply orb_false_r.
  - destruct u; [contradiction|]. destruct (m_parametrized m); reflexivity.
Qed.

Lemma w_C17_again_refused :
  forall u e u_par m c,
    In c u -> control_is_parametrized c m = true ->
    exists m', parametrize_control u e u_par m = (m', Raise ValueError) /\
      same_variables m' m /\ m_ode m' = m_ode m /\ m_alg m' = m_alg m /\ m_u_expr m' = m_u_expr m.
Proof.
  intros u e up m c Hc Hp. unfold control_is_parametrized in Hp.
  apply (memb_spec _ _ sym_eqb_eq) in Hp.
  destruct (parametrize_again u e up m c Hc Hp) as [l E]. eexists. split; [exact E|].
  repeat split.
Qed.

Lemma w_C17_refused_registers_nothing_refuted :
  exists same ops t tau m,
    run_all (model_step same) ops (new_model t tau) = (m, Ok tt) /\
    control_is_parametrized 21 m = false /\
    let m' := fst (parametrize_control [21; 20] [EVar 3; EVar 4] None m) in
    control_is_parametrized 21 m' = true /\ In 21 (m_u_par m') /\
    snd (parametrize_control [21] [EVar 3] None m') = Raise ValueError.
Proof.
  exists (fun _ _ => false),
    [MIncludeControl [20; 21]; MParametrizeControl [20] [EVar 25] (Some [25])], 1, 2.
  eexists. split; [vm_compute; reflexivity|]. split; [reflexivity|]. split; [reflexivity|]. split; [simpl; auto|].
  reflexivity.
Qed.

Lemma w_C17_only_controls_refuted :
  exists m : model,
    ~ In 99 (m_u m) /\ snd (parametrize_control [20; 99] [EVar 3; EVar 4] None m) = Ok tt.
Proof.
  exists (fst (include_control [20] (new_model 1 2))). split; [simpl; intuition discriminate | reflexivity].
Qed.

Lemma w_C18_succeeds :
  forall u y replace m,
    length (m_u_expr m) = length (m_u m) ->
    length u = length y -> (exists c, In c u /\ In c (m_u m)) -> (exists c, In c u /\ In c (m_u_par m)) ->
    snd (connect u y replace m) = Ok tt.
Proof. intros u y r m H1 H2 H3 H4. apply connect_succeeds; [exact H1 | exact (conj H2 (conj H3 H4))]. Qed.

Lemma w_C18_sizes_checked_first :
  forall u y replace m,
    length u <> length y -> connect u y replace m = (m, Raise AssertionError).
Proof. intros u y r m H. rewrite connect_unfold, (proj2 (Nat.eqb_neq _ _) H). reflexivity. Qed.

Lemma w_C18_failed_connect_atomic_refuted :
  exists same ops t tau m,
    run_all (model_step same) ops (new_model t tau) = (m, Ok tt) /\
    let m' := fst (connect [40] [EVar 30] false m) in
    snd (connect [40] [EVar 30] false m) = Raise ValueError /\
    m_y m' = m_y m ++ [40] /\ m_alg m' = m_alg m ++ [EBin OSub (EVar 40) (EVar 30)].
Proof.
  exists (fun _ _ => false), [MIncludeControl [20]; MIncludeAlgebraic [30] None], 1, 2.
  eexists. split; [vm_compute; reflexivity|]. vm_compute. repeat split.
Qed.

Lemma w_C19_merge_solutions :
  forall F env dx others connecting m m',
    in_step m -> Forall in_step others -> own_times m others ->
    merge others (Some connecting) m = (m', Ok tt) ->
    (solves F env dx m' <->
     solves F env dx m /\ Forall (fun o => solves F (at_times env m o) dx o) others /\
     forall e, In e connecting -> (eval F env e == 0)%Q).
Proof.
  intros F env dx others conn m m' Hm Ho Hown H. unfold merge in H. apply cbind_ok in H.
  destruct H as [m1 [[] [H1 H2]]].
  pose proof (include_models_solves F env dx others m m1 Hm Ho Hown H1) as Hs.
  unfold include_equations, include_equations_alg in H2; run_in H2. injection H2 as <-.
  simpl. rewrite app_nil_r. unfold solves at 1; fields. split.
  - intros [A B]. assert (S1 : solves F env dx m1).
    { split; [exact A|]. intros e He. apply B. apply in_or_app; left; exact He. }
    apply Hs in S1. destruct S1 as [S1 S2]. split; [exact S1|]. split; [exact S2|].
    intros e He. apply B. apply in_or_app; right; exact He.
  - intros [S1 [S2 S3]]. assert (S : solves F env dx m1) by (apply Hs; split; assumption).
    destruct S as [A B]. split; [exact A|]. intros e He. apply in_app_or in He.
    destruct He as [He|He]; [apply B, He | apply S3, He].
Qed.

Lemma w_C19_shared_state_refused :
  forall others m,
    in_step m -> Forall in_step others ->
    ~ NoDup (m_x m ++ flat_map m_x others) ->
    exists e, snd (include_models others m) = Raise e.
Proof.
  intros others m Hm Ho Hn. destruct (include_models others m) as [m' [[]|e]] eqn:E; [|exists e; reflexivity].
  exfalso. destruct (include_models_vectors others m m' Hm Ho E) as [Hx [_ [_ [_ [_ [_ [_ [_ [_ [_ [_ [[_ Hnd] _]]]]]]]]]]]].
  rewrite Hx in Hnd. contradiction.
Qed.

Lemma w_C19_shared_state_error :
  forall o m s, in_step m -> In s (m_x o) -> In s (m_x m) ->
    snd (include_models [o] m) = Raise ValueError.
Proof.
  intros o m s Hm Ho Hx. unfold include_models; simpl.
  pose proof (include_model_shared o m s Hm Ho Hx) as H.
  destruct (include_model o m) as [m1 [[]|e]]; simpl in *; [discriminate | exact H].
Qed.

Lemma w_C19_incomplete_model_refused :
  forall o m,
    in_step m -> in_step o -> (forall s, In s (m_x o) -> ~ In s (m_x m)) ->
    ~ complete o ->
    exists m', include_models [o] m = (m', Raise AssertionError) /\
      m_x m' = m_x m ++ m_x o /\ m_y m' = m_y m ++ m_y o /\ m_u m' = m_u m ++ m_u o /\
      m_alg m' = m_alg m ++ m_alg o /\
      (forall s, In s (m_x o) -> equation_of m' s None).
Proof.
  intros o m Hm Ho Hd Hc. exists (declared o m). unfold include_models; simpl.
  rewrite (include_model_run o m Hm Ho Hd).
  destruct (Nat.eqb_spec (length (ode o)) (length (m_x o))) as [E|E].
  { exfalso. apply Hc. exact (proj1 (readback_length o Ho) E). }
  split; [reflexivity|]. repeat split. intros s Hs. unfold equation_of, declared; fields.
  apply in_or_app; right. apply in_map_iff. exists s. split; [reflexivity | exact Hs].
Qed.

Lemma w_C19_parametrised_model_refuted :
  exists same ops t tau o m m',
    run_all (model_step same) ops (new_model t tau) = (o, Ok tt) /\
    include_models [o] m = (m', Ok tt) /\
    In 25 (m_u_par o) /\ equation_of m' 10 (Some (EVar 25)) /\
    has_variable [25] m' = false /\ In 20 (m_u_par m') /\ m_u_expr m' = [EVar 20].
Proof.
  exists (fun _ _ => false),
    [MIncludeControl [20]; MIncludeState [10] (Some [EVar 20]) [12];
     MParametrizeControl [20] [EVar 25] (Some [25])], 1, 2.
  eexists. exists (new_model 3 4). eexists. split; [vm_compute; reflexivity|]. split; [vm_compute; reflexivity|].
  split; [vm_compute; auto|]. split; [left; reflexivity|]. split; [vm_compute; reflexivity|].
  split; [left; reflexivity | reflexivity].
Qed.

Lemma w_C20_equations_stay_with_states_refuted :
  exists f m c,
    fresh_for f m /\ in_step m /\ get_deepcopy f m = Ok c /\
    equation_of m 10 None /\ equation_of m 11 (Some (EVar 11)) /\
    m_x c = [20; 21] /\ equation_of c 20 (Some (EVar 21)) /\ equation_of c 21 None.
Proof.
  exists (mkFresh [20; 21] [22; 23] [] [] [] [] [] 3 4),
    (set_ode [(10, None); (11, Some (EVar 11))] (with_states [10; 11] [12; 13] (new_model 1 2))).
  eexists. split.
  { unfold fresh_for; cbn. repeat split; try reflexivity.
    - repeat constructor; simpl; intuition discriminate.
    - simpl. intuition (subst; discriminate). }
  split; [split; [reflexivity | repeat constructor; simpl; intuition discriminate]|].
  split; [vm_compute; reflexivity|]. unfold equation_of; simpl. repeat split; auto.
Qed.

Lemma w_C20_own_time_refuted :
  exists f m c,
    fresh_for f m /\ in_step m /\ complete m /\ get_deepcopy f m = Ok c /\
    equation_of c 20 (Some (EVar (m_t m))) /\ m_t c <> m_t m.
Proof.
  exists (mkFresh [20] [22] [] [] [] [] [] 3 4),
    (set_ode [(10, Some (EVar 1))] (with_states [10] [12] (new_model 1 2))).
  eexists. split.
  { unfold fresh_for; cbn. repeat split; try reflexivity.
    - repeat constructor; simpl; intuition discriminate.
    - simpl. intuition (subst; discriminate). }
  split; [split; [reflexivity | repeat constructor; simpl; intuition discriminate]|].
  split. { intros s [<-|[]]. exists (EVar 1). left; reflexivity. }
  split; [vm_compute; reflexivity|]. split; [left; reflexivity | discriminate].
Qed.

(** ** Asking for variables *)

Lemma has_variable_iff : forall var m,
    has_variable var m = true <->
    exists s, In s var /\
      (In s (m_x m) \/ In s (m_y m) \/ In s (m_u m) \/ In s (m_p m) \/ In s (m_theta m) \/ In s (m_u_par m)).
Proof.
  intros var m. unfold has_variable. set (vector := m_x m ++ _).
  assert (Hv : forall s, In s vector <->
    (In s (m_x m) \/ In s (m_y m) \/ In s (m_u m) \/ In s (m_p m) \/ In s (m_theta m) \/ In s (m_u_par m))).
  { intros s. unfold vector. rewrite !in_app_iff. tauto. }
  assert (He : forall a b, sym_eqb a b = true <-> a = b) by (intros; apply Nat.eqb_eq).
  rewrite Nat.ltb_lt. split.
  - intros H. destruct (find_syms var vector) as [|i l] eqn:E; [simpl in H; lia|].
    assert (Hi : In i (find_syms var vector)) by (rewrite E; left; reflexivity).
    apply (find_indices_In _ He) in Hi. destruct Hi as [s [Hs Hi]]. exists s. split; [exact Hs|].
    apply Hv. apply (nth_error_In _ _ Hi).
  - intros [s [Hs Hm]]. apply Hv in Hm. apply In_nth_error in Hm. destruct Hm as [i Hi].
    assert (Hf : In i (find_syms var vector)) by (apply (find_indices_In _ He); exists s; tauto).
    destruct (find_syms var vector); [contradiction | simpl; lia].
Qed.

Lemma w_C65_all_refuted :
  exists var m, has_variable var m = true /\ In 99 var /\
    ~ In 99 (m_x m ++ m_y m ++ m_u m ++ m_p m ++ m_theta m ++ m_u_par m).
Proof.
  exists [10; 99], (with_states [10] [12] (new_model 1 2)). split; [reflexivity|].
  split; [right; left; reflexivity|]. simpl. intros [H|[]]. discriminate.
Qed.

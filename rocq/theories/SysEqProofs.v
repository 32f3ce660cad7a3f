(** Proofs about equations reaching their states. *)
From Verif Require Import Base BaseProofs UtilModel UtilProofs ExprModel ExprProofs SysModel SysSpec SysProofs.
Local Open Scope cmd_scope.

Lemma dkeys_fst : forall (d : dict sym (option expr)), dkeys d = map fst d.
Proof. reflexivity. Qed.

Lemma dget_iff_In : forall k v (d : dict sym (option expr)),
    NoDup (map fst d) -> (dget sym_eqb k d = Some v <-> In (k, v) d).
Proof.
  intros k v d H. split.
  - apply (dget_In _ sym_eqb_eq).
  - apply (In_dget _ sym_eqb_eq). exact H.
Qed.

Lemma nth_error_combine_some : forall (x : list sym) (f : list expr) i s e,
    nth_error x i = Some s -> nth_error f i = Some e ->
    In (s, Some e) (combine x (map Some f)).
Proof.
  induction x as [|a x IH]; intros [|b f] [|i] s e Hx Hf; simpl in *; try discriminate.
  - injection Hx as <-. injection Hf as <-. left; reflexivity.
  - right. eapply IH; eassumption.
Qed.

Lemma kwargs_explicit : forall x f m,
    in_step m -> NoDup x -> (forall s, In s x -> In s (m_x m)) -> length f = length x ->
    exists m', include_equation_from_kwargs x f m = (m', Ok tt) /\
               given_by_position m' x f /\ others_keep x m m' /\ only_ode_differs m m' /\ in_step m'.
Proof.
  intros x f m [Hk Hnd] Hx Hin Hlen. rewrite from_kwargs_eq.
  rewrite (proj2 (Nat.eqb_eq _ _) Hlen).
  assert (Hall : forallb (fun s => dhas sym_eqb s (m_ode m)) x = true).
  { apply forallb_forall. intros s Hs. apply (dhas_In _ sym_eqb_eq).
    unfold dkeys. rewrite Hk. apply Hin, Hs. }
  rewrite Hall.
  assert (Hkeys : dkeys (dupdate sym_eqb (m_ode m) (combine x (map Some f))) = dkeys (m_ode m)).
  { apply (dupdate_keys _ sym_eqb_eq). intros k H. rewrite (dkeys_combine_some x f Hlen) in H.
    unfold dkeys. rewrite Hk. apply Hin, H. }
  assert (Hnd' : NoDup (map fst (dupdate sym_eqb (m_ode m) (combine x (map Some f))))).
  { change (NoDup (dkeys (dupdate sym_eqb (m_ode m) (combine x (map Some f))))).
    rewrite Hkeys. unfold dkeys. rewrite Hk. exact Hnd. }
  eexists; split; [reflexivity|]. split; [|split; [|split]].
  - intros i s e H1 H2. unfold equation_of; fields. apply dget_iff_In; [exact Hnd'|].
    apply (dupdate_in _ sym_eqb_eq).
    + rewrite (dkeys_combine_some x f Hlen). exact Hx.
    + eapply nth_error_combine_some; eassumption.
  - intros s e Hs. unfold equation_of; fields. rewrite <- dget_iff_In by exact Hnd'.
    rewrite (dupdate_notin _ sym_eqb_eq).
    + apply dget_iff_In. rewrite Hk. exact Hnd.
    + rewrite (dkeys_combine_some x f Hlen). exact Hs.
  - split; [repeat split|]. fields. repeat split. exact Hkeys.
  - split; fields; [|exact Hnd]. change (dkeys (dupdate sym_eqb (m_ode m) (combine x (map Some f))) = m_x m).
    rewrite Hkeys. exact Hk.
Qed.

Definition alg_added (l : list expr) (m : model) : model := set_alg (m_alg m ++ l) m.

Lemma include_explicit_unfold : forall f x alg m,
    include_equations [] (Some f) (Some x) alg m =
    include_equation_from_kwargs x f
      (alg_added (match alg with Some a => a | None => [] end) m).
Proof.
  intros f x alg m. unfold include_equations, include_equations_alg, alg_added; run. simpl.
  rewrite app_nil_r. reflexivity.
Qed.

Lemma alg_added_nil : forall m, alg_added [] m = m.
Proof. intros []; unfold alg_added; simpl; rewrite app_nil_r; reflexivity. Qed.

Lemma explicit_ok : forall x f m,
    in_step m -> NoDup x -> (forall s, In s x -> In s (m_x m)) -> length f = length x ->
    exists m', include_equations [] (Some f) (Some x) None m = (m', Ok tt) /\
               given_by_position m' x f /\ others_keep x m m' /\ only_ode_differs m m'.
Proof.
  intros x f m H1 H2 H3 H4. rewrite include_explicit_unfold, alg_added_nil.
  destruct (kwargs_explicit x f m H1 H2 H3 H4) as [m' [E [A [B [C _]]]]].
  exact (ex_intro _ m' (conj E (conj A (conj B C)))).
Qed.

Lemma explicit_size_error : forall x f m,
    length f <> length x ->
    include_equations [] (Some f) (Some x) None m = (m, Raise AssertionError).
Proof.
  intros x f m H. rewrite include_explicit_unfold, alg_added_nil, from_kwargs_eq.
  apply Nat.eqb_neq in H. rewrite H. reflexivity.
Qed.

Lemma explicit_unknown_state : forall x f m s,
    in_step m -> length f = length x -> In s x -> ~ In s (m_x m) ->
    include_equations [] (Some f) (Some x) None m = (m, Raise KeyError).
Proof.
  intros x f m s [Hk _] Hlen Hs Hn. rewrite include_explicit_unfold, alg_added_nil, from_kwargs_eq.
  rewrite (proj2 (Nat.eqb_eq _ _) Hlen).
  destruct (forallb _ x) eqn:E; [|reflexivity].
  rewrite forallb_forall in E. specialize (E s Hs). apply (dhas_In _ sym_eqb_eq) in E.
  unfold dkeys in E. rewrite Hk in E. contradiction.
Qed.

Lemma states_without_equations : forall args x alg m,
    exists l, include_equations args None (Some x) alg m = (alg_added l m, Raise ValueError) /\
              l = match alg with Some a => a | None => [] end ++ residuals args.
Proof.
  intros args x alg m. unfold include_equations, include_equations_alg, alg_added; run.
  eexists; split; [reflexivity|]. f_equal.
  induction args as [|[i r|l r|] args IH]; simpl; [reflexivity | exact IH | f_equal; exact IH | exact IH].
Qed.

(** ** Derivative equations *)

Lemma differentiated_flat : forall args,
    flat_map (fun a => match a with EqDer inner _ => inner | _ => [] end) args = differentiated args.
Proof.
  induction args as [|[i r|l r|] args IH]; simpl; rewrite ?IH; reflexivity.
Qed.
Lemma residuals_flat : forall args,
    flat_map (fun a => match a with EqSX l r => [EBin OSub l r] | _ => [] end) args = residuals args.
Proof.
  induction args as [|[i r|l r|] args IH]; simpl; rewrite ?IH; reflexivity.
Qed.

Definition rhs_of (args : list eqn) : list expr :=
  flat_map (fun a => match a with EqDer _ rhs => rhs | _ => [] end) args.

Lemma der_lengths : forall args,
    Forall der_sizes_match args -> length (rhs_of args) = length (differentiated args).
Proof.
  induction args as [|[i r|l r|] args IH]; intros H; inversion H; subst; simpl; [reflexivity| |apply IH; assumption|apply IH; assumption].
  unfold rhs_of in *. simpl. rewrite !app_length, IH by assumption. simpl in H2. lia.
Qed.

Lemma der_position : forall args inner rhs i s e,
    Forall der_sizes_match args -> In (EqDer inner rhs) args ->
    nth_error inner i = Some s -> nth_error rhs i = Some e ->
    exists j, nth_error (differentiated args) j = Some s /\ nth_error (rhs_of args) j = Some e.
Proof.
  induction args as [|a args IH]; intros inner rhs i s e Hf Hin H1 H2; [contradiction|].
  inversion Hf; subst. destruct Hin as [->|Hin].
  - exists i. unfold rhs_of; simpl. split; rewrite nth_error_app1; try assumption;
      apply nth_error_Some; congruence.
  - destruct (IH inner rhs i s e H4 Hin H1 H2) as [j [Hj1 Hj2]].
    destruct a as [i' r'|l r|]; [|exists j; split; assumption|exists j; split; assumption].
    simpl in H3. exists (length i' + j). unfold rhs_of in *; simpl.
    rewrite !nth_error_app2 by lia.
    replace (length i' + j - length i')%nat with j by lia.
    replace (length i' + j - length r')%nat with j by lia. split; assumption.
Qed.

Lemma der_ok : forall args m,
    in_step m -> Forall der_sizes_match args -> NoDup (differentiated args) ->
    (forall s, In s (differentiated args) -> In s (m_x m)) ->
    exists m', include_equations args None None None m = (m', Ok tt) /\
      (forall inner rhs, In (EqDer inner rhs) args -> given_by_position m' inner rhs) /\
      others_keep (differentiated args) m m' /\
      m_alg m' = m_alg m ++ residuals args /\ same_variables m' m /\ m_u_expr m' = m_u_expr m.
Proof.
  intros args m Hs Hf Hnd Hin.
  set (m1 := alg_added (residuals args) m).
  assert (Hs1 : in_step m1) by exact Hs.
  destruct (kwargs_explicit (differentiated args) (rhs_of args) m1 Hs1 Hnd Hin (der_lengths args Hf))
    as [m' [E [A [B [[C1 [C2 [C3 _]]] _]]]]].
  assert (Hrun : include_equations args None None None m =
                 match args with [] => (m1, Ok tt)
                 | _ => include_equation_from_kwargs (differentiated args) (rhs_of args) m1 end).
  { unfold include_equations, include_equations_alg, include_equation_from_diff_equations; run.
    rewrite residuals_flat, differentiated_flat. simpl.
    fold (rhs_of args). destruct args; [reflexivity|].
    fold m1. change (set_alg (m_alg m ++ residuals (e :: args)) m) with m1.
    destruct (include_equation_from_kwargs _ _ m1) as [m2 [[]|e']]; reflexivity. }
  rewrite Hrun. clear Hrun. destruct args as [|a args].
  - exists m1. split; [reflexivity|]. split; [intros ? ? []|].
    split; [intros s e _; reflexivity|]. repeat split.
  - exists m'. split; [exact E|]. split.
    + intros inner rhs Ha i s e H1 H2.
      destruct (der_position _ _ _ _ _ _ Hf Ha H1 H2) as [j [Hj1 Hj2]]. exact (A j s e Hj1 Hj2).
    + split; [exact B|]. split; [exact C2|]. split; [exact C1 | exact C3].
Qed.

(** ** Guessed states *)

Lemma guess_unfold : forall f m,
    include_equations [] (Some f) None None m =
    match guess_states (length f) m with
    | Raise e => (m, Raise e)
    | Ok x => include_equation_from_kwargs x f m
    end.
Proof.
  intros f m. unfold include_equations, include_equations_alg; run. simpl.
  change (set_alg (m_alg m ++ []) m) with (alg_added [] m). rewrite alg_added_nil. reflexivity.
Qed.

Lemma index_none_prefix : forall vs k,
    index_none vs = Some k ->
    existsb (fun o : option expr => match o with Some _ => true | None => false end) (firstn k vs)
    = (0 <? k)%nat.
Proof.
  intros [|[e|] vs] k H; simpl in H; [discriminate| |].
  - destruct (index_none vs); [|discriminate]. injection H as <-. reflexivity.
  - injection H as <-. reflexivity.
Qed.

Lemma guess_first_unset : forall m s0 rest n,
    in_step m -> m_x m = s0 :: rest -> equation_of m s0 None -> (0 < n)%nat ->
    guess_states n m = Ok (firstn n (m_x m)).
Proof.
  intros m s0 rest n [Hk Hnd] Hx He Hn. unfold guess_states, equation_of in *.
  destruct (m_ode m) as [|[k v] d] eqn:Eo; simpl in Hk; [rewrite Hx in Hk; discriminate|].
  assert (k = s0) by (rewrite Hx in Hk; injection Hk; auto). subst k.
  assert (v = None).
  { destruct He as [He|He]; [injection He; auto|].
    rewrite <- Hk in Hnd. inversion Hnd; subst. exfalso. apply H1.
    change s0 with (fst (s0, @None expr)). apply in_map, He. }
  subst v. simpl. destruct n; [lia|]. rewrite <- Hk. reflexivity.
Qed.

Lemma guess_first_set : forall m s0 rest e n,
    in_step m -> m_x m = s0 :: rest -> equation_of m s0 (Some e) ->
    guess_states n m = Raise ValueError.
Proof.
  intros m s0 rest e n [Hk Hnd] Hx He. unfold guess_states, equation_of in *.
  destruct (m_ode m) as [|[k v] d] eqn:Eo; simpl in Hk; [rewrite Hx in Hk; discriminate|].
  assert (k = s0) by (rewrite Hx in Hk; injection Hk; auto). subst k.
  assert (v = Some e).
  { destruct He as [He|He]; [injection He; auto|].
    rewrite <- Hk in Hnd. inversion Hnd; subst. exfalso. apply H1.
    change s0 with (fst (s0, Some e)). apply in_map, He. }
  subst v. destruct (index_none _) as [k|] eqn:Ei; [|reflexivity].
  rewrite (index_none_prefix _ _ Ei). simpl in Ei. destruct (index_none (dvals d)); [|discriminate].
  injection Ei as <-. reflexivity.
Qed.

Lemma guess_ok : forall m s0 rest f,
    in_step m -> m_x m = s0 :: rest -> equation_of m s0 None ->
    (0 < length f <= length (m_x m))%nat ->
    exists m', include_equations [] (Some f) None None m = (m', Ok tt) /\
      given_by_position m' (firstn (length f) (m_x m)) f /\
      others_keep (firstn (length f) (m_x m)) m m' /\ only_ode_differs m m'.
Proof.
  intros m s0 rest f Hs Hx He [H1 H2]. rewrite guess_unfold, (guess_first_unset m s0 rest) by assumption.
  destruct (kwargs_explicit (firstn (length f) (m_x m)) f m Hs) as [m' [E [A [B [C _]]]]].
  - destruct Hs as [_ Hnd]. rewrite <- (firstn_skipn (length f) (m_x m)) in Hnd.
    apply NoDup_app_l in Hnd. exact Hnd.
  - intros s Hin. rewrite <- (firstn_skipn (length f) (m_x m)). apply in_or_app. left; exact Hin.
  - rewrite firstn_length. lia.
  - exact (ex_intro _ m' (conj E (conj A (conj B C)))).
Qed.

Lemma guess_refused : forall m s0 rest e f,
    in_step m -> m_x m = s0 :: rest -> equation_of m s0 (Some e) ->
    include_equations [] (Some f) None None m = (m, Raise ValueError).
Proof.
  intros m s0 rest e f Hs Hx He. rewrite guess_unfold.
  rewrite (guess_first_set m s0 rest e) by assumption. reflexivity.
Qed.

Lemma guess_no_states : forall m f,
    in_step m -> m_x m = [] ->
    include_equations [] (Some f) None None m = (m, Raise ValueError).
Proof.
  intros m f [Hk _] Hx. rewrite guess_unfold. unfold guess_states.
  rewrite Hx in Hk. apply map_eq_nil in Hk. rewrite Hk. reflexivity.
Qed.

Lemma guess_too_many : forall m f,
    in_step m -> (length (m_x m) < length f)%nat ->
    exists e, include_equations [] (Some f) None None m = (m, Raise e).
Proof.
  intros m f Hs Hlen. destruct (m_x m) as [|s0 rest] eqn:Hx.
  - exists ValueError. apply guess_no_states; assumption.
  - assert (Hin : exists v, equation_of m s0 v).
    { destruct Hs as [Hk _]. rewrite Hx in Hk. unfold equation_of. destruct (m_ode m) as [|[k v] d]; [discriminate|].
      injection Hk as -> _. exists v. left; reflexivity. }
    destruct Hin as [[e|] He].
    + exists ValueError. eapply guess_refused; eassumption.
    + exists AssertionError. rewrite guess_unfold, (guess_first_unset m s0 rest) by (assumption || lia).
      rewrite from_kwargs_eq, firstn_length, Hx.
      destruct (Nat.eqb_spec (length f) (Nat.min (length f) (length (s0 :: rest)))); [lia | reflexivity].
Qed.

(** ** Reading the equations back *)

Lemma has_equation_cons_other : forall k v d s,
    k <> s ->
    existsb (fun kv : sym * option expr => match snd kv with Some _ => Nat.eqb (fst kv) s | None => false end) ((k, v) :: d) =
    existsb (fun kv : sym * option expr => match snd kv with Some _ => Nat.eqb (fst kv) s | None => false end) d.
Proof.
  intros k v d s H. simpl. apply Nat.eqb_neq in H. destruct v; rewrite ?H; reflexivity.
Qed.

Lemma readback_gen : forall (d : dict sym (option expr)),
    NoDup (map fst d) ->
    Forall2 (fun s e => In (s, Some e) d)
      (filter (fun s => existsb (fun kv => match snd kv with Some _ => Nat.eqb (fst kv) s | None => false end) d) (map fst d))
      (flat_map (fun o => match o with Some e => [e] | None => [] end) (dvals d)).
Proof.
  induction d as [|[k v] d IH]; intros Hnd; [constructor|].
  cbn [map fst] in Hnd. inversion Hnd as [|? ? Hk Hnd']; subst.
  assert (Hrest : Forall2 (fun s e => In (s, Some e) ((k, v) :: d))
     (filter (fun s => existsb (fun kv => match snd kv with Some _ => Nat.eqb (fst kv) s | None => false end) ((k, v) :: d)) (map fst d))
     (flat_map (fun o => match o with Some e => [e] | None => [] end) (dvals d))).
  { rewrite (filter_ext_in _ (fun s => existsb (fun kv => match snd kv with Some _ => Nat.eqb (fst kv) s | None => false end) d)).
    - specialize (IH Hnd'). clear - IH. induction IH; constructor; [right; assumption | assumption].
    - intros s Hs. apply has_equation_cons_other. intros ->. contradiction. }
  set (f := fun s => existsb (fun kv => match snd kv with Some _ => Nat.eqb (fst kv) s | None => false end) ((k, v) :: d)) in *.
  change (filter f (map fst ((k, v) :: d)))
    with (if f k then k :: filter f (map fst d) else filter f (map fst d)).
  destruct v as [e|].
  - assert (E : f k = true) by (unfold f; simpl; rewrite Nat.eqb_refl; reflexivity).
    rewrite E. constructor; [left; reflexivity | exact Hrest].
  - assert (E : f k = false).
    { unfold f. apply existsb_false_iff. intros [k' [e|]] Hin; simpl; [|reflexivity].
      destruct Hin as [Hin|Hin]; [discriminate|]. apply Nat.eqb_neq. intros ->. apply Hk.
      change k with (fst (k, Some e)). apply in_map, Hin. }
    rewrite E. exact Hrest.
Qed.

Lemma readback : forall m,
    in_step m ->
    Forall2 (fun s e => equation_of m s (Some e)) (filter (has_equation m) (m_x m)) (ode m).
Proof.
  intros m [Hk Hnd]. unfold equation_of, has_equation, ode. rewrite <- Hk in *. apply readback_gen, Hnd.
Qed.

Lemma has_equation_true : forall m s,
    has_equation m s = true <-> exists e, equation_of m s (Some e).
Proof.
  intros m s. unfold has_equation, equation_of. rewrite existsb_exists. split.
  - intros [[k [e|]] [Hin H]]; simpl in H; [|discriminate]. apply Nat.eqb_eq in H; subst.
    exists e; exact Hin.
  - intros [e Hin]. exists (s, Some e). split; [exact Hin | apply Nat.eqb_refl].
Qed.

Lemma filter_length_all : forall (A : Type) (f : A -> bool) l,
    length (filter f l) = length l -> forall a, In a l -> f a = true.
Proof.
  intros A f l. induction l as [|b l IH]; simpl; intros H a Ha; [contradiction|].
  pose proof (filter_len_le _ f l). destruct (f b) eqn:E; simpl in H; [|lia].
  destruct Ha as [<-|Ha]; [exact E | apply IH; [lia | exact Ha]].
Qed.
Lemma filter_all : forall (A : Type) (f : A -> bool) l,
    (forall a, In a l -> f a = true) -> filter f l = l.
Proof.
  intros A f l H. induction l as [|b l IH]; simpl; [reflexivity|].
  rewrite (H b (or_introl eq_refl)). f_equal. apply IH. intros a Ha; apply H; right; exact Ha.
Qed.

Lemma readback_length : forall m,
    in_step m ->
    (length (ode m) = length (m_x m) <->
     forall s, In s (m_x m) -> exists e, equation_of m s (Some e)).
Proof.
  intros m Hs. pose proof (Forall2_len _ _ _ _ _ (readback m Hs)) as Hl. rewrite <- Hl. split.
  - intros H s Hin. apply has_equation_true. exact (filter_length_all _ _ _ H s Hin).
  - intros H. rewrite filter_all; [reflexivity|]. intros s Hin. apply has_equation_true, H, Hin.
Qed.

Lemma readback_complete : forall m,
    in_step m -> (forall s, In s (m_x m) -> exists e, equation_of m s (Some e)) ->
    Forall2 (fun s e => equation_of m s (Some e)) (m_x m) (ode m).
Proof.
  intros m Hs H. pose proof (readback m Hs) as Hr. rewrite filter_all in Hr; [exact Hr|].
  intros s Hin. apply has_equation_true, H, Hin.
Qed.

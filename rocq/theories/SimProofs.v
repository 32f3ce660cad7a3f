(** Proofs about DAE systems and simulation. *)
From Coq Require Import String.
From Verif Require Import Base BaseProofs UtilModel ExprModel ExprProofs SysModel SysSpec SysProofs SimModel SimSpec.
Local Open Scope list_scope.

(** ** DAE systems *)

Lemma eval_subst_one : forall F env e a b,
    eval F env (substitute e [a] [EVar b]) = eval F (assign env [a] [env b]) e.
Proof.
  intros. rewrite eval_substitute. apply eval_ext. intros s _. unfold env_subst; simpl.
  destruct (Nat.eq_dec s a) as [->|H]; [rewrite Nat.eqb_refl; reflexivity|].
  rewrite (proj2 (Nat.eqb_neq s a) H). reflexivity.
Qed.

Lemma eval_subst_two : forall F env e t' t tau' tau,
    t <> tau' -> t' <> tau' ->
    eval F env (substitute (substitute e [t'] [EVar t]) [tau'] [EVar tau]) =
    eval F (assign env [t'; tau'] [env t; env tau]) e.
Proof.
  intros F env e t' t tau' tau H1 H2. rewrite !eval_subst_one. apply eval_ext. intros s _. simpl.
  destruct (Nat.eq_dec s t') as [->|Hs].
  - destruct (Nat.eq_dec t tau'); [contradiction | reflexivity].
  - reflexivity.
Qed.

Lemma dae_solves_subst : forall F env env' dx d v w,
    (forall e, eval F env (substitute e v w) = eval F env' e) ->
    (dae_solves F env dx (dae_substitute_variable v w d) <-> dae_solves F env' dx d).
Proof.
  intros F env env' dx d v w H. unfold dae_solves, dae_substitute_variable, subst_vec; simpl. split.
  - intros [A B]. split.
    + remember (map (fun e => substitute e v w) (d_ode d)) as l eqn:El. revert El.
      generalize (d_ode d). induction A as [|q e dx' l' Hq A' IH]; intros [|e0 o] El; try discriminate; constructor.
      * injection El as -> _. rewrite <- H. exact Hq.
      * apply IH. injection El as _ ->. reflexivity.
    + intros e He. rewrite <- H. apply B. apply in_map_iff. exists e; split; [reflexivity | exact He].
  - intros [A B]. split.
    + induction A as [|q e dx' l' Hq A' IH]; simpl; constructor; [rewrite H; exact Hq | exact IH].
    + intros e He. apply in_map_iff in He. destruct He as [e' [<- He']]. rewrite H. apply B, He'.
Qed.

Lemma Forall2_app_iff : forall (A B : Type) (R : A -> B -> Prop) a1 a2 b1 b2,
    length a1 = length b1 -> (Forall2 R (a1 ++ a2) (b1 ++ b2) <-> Forall2 R a1 b1 /\ Forall2 R a2 b2).
Proof.
  intros A B R a1. induction a1 as [|x a1 IH]; intros a2 [|y b1] b2 H; simpl in *; try discriminate.
  - split; [intros K; split; [constructor | exact K] | intros [_ K]; exact K].
  - injection H as H. split.
    + intros K. inversion K; subst. apply IH in H5; [|exact H]. destruct H5. split; [constructor; assumption | assumption].
    + intros [K1 K2]. inversion K1; subst. constructor; [assumption|]. apply IH; [exact H|]. split; assumption.
Qed.

Lemma dae_solves_app : forall F env dx1 dx2 d o t tau,
    length dx1 = length (d_ode d) ->
    (dae_solves F env (dx1 ++ dx2)
       (mkDae (d_x d ++ d_x o) (d_y d ++ d_y o) (d_p d ++ d_p o)
              (d_ode d ++ d_ode o) (d_alg d ++ d_alg o) t tau) <->
     dae_solves F env dx1 d /\ dae_solves F env dx2 o).
Proof.
  intros F env dx1 dx2 d o t tau H. unfold dae_solves; simpl.
  rewrite (Forall2_app_iff _ _ _ dx1 dx2 (d_ode d) (d_ode o) H). split.
  - intros [[A1 A2] B]. split; (split; [assumption|]); intros e He; apply B, in_or_app; [left | right]; exact He.
  - intros [[A1 B1] [A2 B2]]. split; [split; assumption|]. intros e He. apply in_app_or in He.
    destruct He; [apply B1 | apply B2]; assumption.
Qed.

Lemma dae_solves_ext : forall F env env' dx d,
    (forall s, dae_mentions d s -> env s = env' s) ->
    (dae_solves F env dx d <-> dae_solves F env' dx d).
Proof.
  assert (H : forall F env env' dx d, (forall s, dae_mentions d s -> env s = env' s) ->
              dae_solves F env dx d -> dae_solves F env' dx d).
  { intros F env env' dx d H [A B].
    assert (E : forall e, In e (d_ode d ++ d_alg d) -> eval F env e = eval F env' e).
    { intros e He. apply eval_ext. intros s Hs. apply H. exists e. split; assumption. }
    split.
    - assert (E' : forall e, In e (d_ode d) -> eval F env e = eval F env' e)
        by (intros e He; apply E, in_or_app; left; exact He).
      clear E H B. induction A as [|q e dx' l' Hq A' IH]; constructor.
      + rewrite <- E' by (left; reflexivity). exact Hq.
      + apply IH. intros e' He'. apply E'. right; exact He'.
    - intros e He. rewrite <- E by (apply in_or_app; right; exact He). apply B, He. }
  intros F env env' dx d Hs. split; apply H; [exact Hs|]. intros s Hm. symmetry. apply Hs, Hm.
Qed.

Lemma join_solves : forall F env dx1 dx2 d o d' t t' tau tau',
    d_t d = Some t -> d_t o = Some t' -> d_tau d = Some tau -> d_tau o = Some tau' ->
    t <> tau' -> t' <> tau' -> length dx1 = length (d_ode d) ->
    dae_join o d = (d', Ok tt) ->
    let env' := assign env [t'; tau'] [env t; env tau] in
    (dae_solves F env (dx1 ++ dx2) d' <-> dae_solves F env' dx1 d /\ dae_solves F env' dx2 o).
Proof.
  intros F env dx1 dx2 d o d' t t' tau tau' H1 H2 H3 H4 H5 H6 Hl H env'.
  unfold dae_join in H. rewrite H1, H2, H3, H4 in H. injection H as <-.
  rewrite (dae_solves_subst F env (assign env [tau'] [env tau])) by (intros e; apply eval_subst_one).
  rewrite (dae_solves_subst F _ env').
  2:{ intros e. rewrite eval_subst_one. unfold env'. apply eval_ext. intros s _. simpl.
      destruct (Nat.eq_dec s t') as [->|Hs]; [|reflexivity].
      destruct (Nat.eq_dec t tau'); [contradiction | reflexivity]. }
  apply dae_solves_app. exact Hl.
Qed.

Lemma join_solves_no_tau : forall F env dx1 dx2 d o d' t t',
    d_t d = Some t -> d_t o = Some t' -> d_tau d = None \/ d_tau o = None ->
    length dx1 = length (d_ode d) ->
    dae_join o d = (d', Ok tt) ->
    let env' := assign env [t'] [env t] in
    (dae_solves F env (dx1 ++ dx2) d' <-> dae_solves F env' dx1 d /\ dae_solves F env' dx2 o).
Proof.
  intros F env dx1 dx2 d o d' t t' H1 H2 H3 Hl H env'.
  unfold dae_join in H. rewrite H1, H2 in H.
  assert (E : d' = dae_substitute_variable [t'] [EVar t]
    (mkDae (d_x d ++ d_x o) (d_y d ++ d_y o) (d_p d ++ d_p o)
           (d_ode d ++ d_ode o) (d_alg d ++ d_alg o) (Some t) (d_tau d))).
  { destruct H3 as [E|E]; rewrite E in H; [destruct (d_tau o)|]; rewrite ?E; injection H as <-; reflexivity. }
  rewrite E, (dae_solves_subst F env env') by (intros e; apply eval_subst_one).
  apply dae_solves_app. exact Hl.
Qed.

(** ** Integrator selection and options *)

Lemma plugin_cases : forall d ty,
    select_plugin d ty =
    if String.eqb ty "implicit" then Ok (if dae_is_ode d then "cvodes" else "idas")%string
    else if String.eqb ty "explicit" then Ok "rk"%string
    else if memb String.eqb ty ["rk"; "collocation"; "cvodes"; "idas"]%string then Ok ty
    else Raise ValueError.
Proof.
  intros d ty. unfold select_plugin. destruct (String.eqb_spec ty "explicit") as [->|He].
  - reflexivity.
  - destruct (String.eqb_spec ty "implicit") as [->|Hi]; simpl.
    + unfold dae_is_dae. destruct (dae_is_ode d); reflexivity.
    + reflexivity.
Qed.

Lemma string_eqb_eq : forall a b, String.eqb a b = true <-> a = b.
Proof. apply String.eqb_eq. Qed.

Lemma dget_filter_neq : forall (V : Type) (d : dict string V) n k, k <> n ->
    dget String.eqb k (filter (fun kv => negb (String.eqb n (fst kv))) d) = dget String.eqb k d.
Proof.
  intros V d n k H. induction d as [|[a v] d IH]; [reflexivity|]. cbn [filter fst].
  destruct (String.eqb_spec n a) as [<-|Hn]; cbn [negb].
  - rewrite IH. cbn [dget]. destruct (String.eqb_spec k n); [contradiction | reflexivity].
  - cbn [dget]. destruct (String.eqb k a); [reflexivity | exact IH].
Qed.

Lemma dget_dset : forall (V : Type) (d : dict string V) k k' v,
    dget String.eqb k (dset String.eqb k' v d) = if String.eqb k k' then Some v else dget String.eqb k d.
Proof.
  intros V d k k' v. induction d as [|[a w] d IH].
  - simpl. reflexivity.
  - cbn [dset]. destruct (String.eqb_spec k' a) as [->|Hn]; cbn [dget].
    + destruct (String.eqb k a); reflexivity.
    + rewrite IH. destruct (String.eqb_spec k a) as [->|Hk]; [|reflexivity].
      destruct (String.eqb_spec a k') as [->|]; [contradiction | reflexivity].
Qed.

Lemma dget_defaults : forall (V : Type) (defaults acc : dict string V) k,
    dget String.eqb k
      (fold_left (fun acc kv => if dhas String.eqb (fst kv) acc then acc
                                else dset String.eqb (fst kv) (snd kv) acc) defaults acc) =
    match dget String.eqb k acc with Some v => Some v | None => dget String.eqb k defaults end.
Proof.
  intros V defaults. induction defaults as [|[a v] defaults IH]; intros acc k; cbn [fold_left].
  - simpl. destruct (dget String.eqb k acc); reflexivity.
  - rewrite IH. cbn [fst snd dget]. unfold dhas. destruct (dget String.eqb a acc) as [w|] eqn:E.
    + destruct (dget String.eqb k acc) eqn:Ek; [reflexivity|].
      destruct (String.eqb_spec k a) as [->|]; [congruence | reflexivity].
    + rewrite dget_dset. destruct (String.eqb_spec k a) as [->|]; [|reflexivity].
      rewrite E. reflexivity.
Qed.

Lemma dget_dupdate : forall (V : Type) (e d : dict string V) k,
    NoDup (map fst e) ->
    dget String.eqb k (dupdate String.eqb d e) =
    match dget String.eqb k e with Some v => Some v | None => dget String.eqb k d end.
Proof.
  intros V e. unfold dupdate. induction e as [|[a v] e IH]; intros d k Hn; cbn [fold_left]; [reflexivity|].
  inversion Hn as [|? ? Ha Hn']; subst. rewrite IH by exact Hn'. cbn [fst snd dget]. rewrite dget_dset.
  destruct (String.eqb_spec k a) as [->|]; [|reflexivity].
  destruct (dget String.eqb a e) eqn:E; [|reflexivity].
  exfalso. apply Ha. apply (dget_In _ String.eqb_eq) in E. apply in_map_iff. exists (a, v0). split; [reflexivity | exact E].
Qed.

Lemma options_win : forall defaults user t_f t_0 k,
    NoDup (map fst user) -> k <> "name"%string ->
    dget String.eqb k (snd (integrator_options defaults (simulation_options t_f t_0 user))) =
    winning_option defaults user t_f t_0 k.
Proof.
  intros defaults user t_f t_0 k Hn Hk. unfold integrator_options, simulation_options, winning_option. cbn [snd].
  rewrite dget_defaults, dget_filter_neq by exact Hk. rewrite dget_dupdate by exact Hn.
  destruct (dget String.eqb k user); [reflexivity|]. cbn [dget].
  destruct (String.eqb k "tf"); [reflexivity|]. destruct (String.eqb k "t0"); reflexivity.
Qed.

(** ** Simulation *)

Lemma dget_enumerate_from : forall (A : Type) (l : list A) a k,
    dget Nat.eqb k (combine (seq a (length l)) l) = if (k <? a)%nat then None else nth_error l (k - a).
Proof.
  intros A l. induction l as [|x l IH]; intros a k; cbn [length seq combine dget].
  - destruct (k <? a)%nat; [reflexivity|]. destruct (k - a)%nat; reflexivity.
  - destruct (Nat.eqb_spec k a) as [->|Hne].
    + rewrite Nat.ltb_irrefl, Nat.sub_diag. reflexivity.
    + rewrite IH. destruct (Nat.ltb_spec k a) as [H|H].
      * assert (E : (k <? S a)%nat = true) by (apply Nat.ltb_lt; lia). rewrite E. reflexivity.
      * assert (E : (k <? S a)%nat = false) by (apply Nat.ltb_ge; lia). rewrite E.
        replace (k - a)%nat with (S (k - S a)) by lia. reflexivity.
Qed.

Lemma dget_enumerate : forall (A : Type) (l : list A) k, dget Nat.eqb k (enumerate l) = nth_error l k.
Proof. intros. unfold enumerate. rewrite dget_enumerate_from. simpl. rewrite Nat.sub_0_r. reflexivity. Qed.

Section Loop.
  Variable integrate : icall -> res (list Q * list Q).
  Variable defaults : options.
  Variable F : nat -> Q -> Q.
  Notation sim_loop := (simulate_loop integrate defaults F).
  Notation sim := (simulate integrate defaults F).
  Notation step := (dae_simulate integrate defaults).

  Lemma loop_times : forall m p th us ty user t_f k t_k x_k y_k s,
      sim_loop m p th us ty user k t_f t_k x_k y_k = Ok s ->
      map fst (s_x s) = t_f /\ map fst (s_y s) = t_f /\ map fst (s_u s) = t_f.
  Proof.
    intros m p th us ty user t_f. induction t_f as [|t t_f IH]; intros k t_k x_k y_k s H; cbn [simulate_loop] in H.
    - injection H as <-. repeat split.
    - destruct (dget Nat.eqb k th) as [th_k|]; [|discriminate].
      destruct (dget Nat.eqb k us) as [u_k|]; [|discriminate].
      destruct (dae_simulate _ _ _ _ _ _ _ _ _ _) as [[xf zf]|e]; [|discriminate].
      destruct (sim_loop m p th us ty user (S k) t_f t xf (Some zf)) as [s'|e] eqn:E; [|discriminate].
      injection H as <-. apply IH in E. destruct E as [E1 [E2 E3]]. simpl. rewrite E1, E2, E3. repeat split.
  Qed.

  (** What happens in each element. *)
  Lemma loop_chained : forall m p th us ty user t_f k t_k x_k y_k s i t,
      sim_loop m p th us ty user k t_f t_k x_k y_k = Ok s ->
      nth_error t_f i = Some t ->
      exists t_i x_i y_i th_i u_i xf zf,
        nth_error ((t_k, x_k) :: s_x s) i = Some (t_i, x_i) /\
        y_i = match i with O => y_k | S i' => option_map snd (nth_error (s_y s) i') end /\
        dget Nat.eqb (k + i)%nat th = Some th_i /\ dget Nat.eqb (k + i)%nat us = Some u_i /\
        step (get_dae_system m) x_i t t_i (p ++ th_i ++ u_i) y_i ty user = Ok (xf, zf) /\
        nth_error (s_x s) i = Some (t, xf) /\ nth_error (s_y s) i = Some (t, zf) /\
        nth_error (s_u s) i = Some (t, f_u F m t xf zf p th_i u_i).
  Proof.
    intros m p th us ty user t_f. induction t_f as [|t0 t_f IH]; intros k t_k x_k y_k s i t H Hi;
      cbn [simulate_loop] in H.
    - destruct i; discriminate.
    - destruct (dget Nat.eqb k th) as [th_k|] eqn:Eth; [|discriminate].
      destruct (dget Nat.eqb k us) as [u_k|] eqn:Eu; [|discriminate].
      destruct (step (get_dae_system m) x_k t0 t_k (p ++ th_k ++ u_k) y_k ty user) as [[xf zf]|e] eqn:Es; [|discriminate].
      destruct (sim_loop m p th us ty user (S k) t_f t0 xf (Some zf)) as [s'|e] eqn:E; [|discriminate].
      injection H as <-. destruct i as [|i]; cbn [nth_error] in Hi.
      + injection Hi as <-. exists t_k, x_k, y_k, th_k, u_k, xf, zf. rewrite Nat.add_0_r.
        repeat split; try assumption; reflexivity.
      + destruct (IH (S k) t0 xf (Some zf) s' i t E Hi) as [t_i [x_i [y_i [th_i [u_i [xf' [zf' [A1 [A2 [A3 [A4 [A5 [A6 [A7 A8]]]]]]]]]]]]]].
        exists t_i, x_i, y_i, th_i, u_i, xf', zf'. replace (k + S i)%nat with (S k + i)%nat by lia.
        split; [exact A1|]. split; [|repeat split; assumption].
        rewrite A2. destruct i; reflexivity.
  Qed.

  Lemma loop_app : forall m p th us ty user l1 l2 k t_k x_k y_k,
      sim_loop m p th us ty user k (l1 ++ l2) t_k x_k y_k =
      match sim_loop m p th us ty user k l1 t_k x_k y_k with
      | Raise e => Raise e
      | Ok a =>
          let '(t', x') := last (s_x a) (t_k, x_k) in
          let y' := match s_y a with [] => y_k | _ => Some (snd (last (s_y a) (0%Q, []))) end in
          match sim_loop m p th us ty user (k + length l1) l2 t' x' y' with
          | Raise e => Raise e
          | Ok b => Ok (mkSim (s_x a ++ s_x b) (s_y a ++ s_y b) (s_u a ++ s_u b))
          end
      end.
  Proof.
    intros m p th us ty user l1. induction l1 as [|t l1 IH]; intros l2 k t_k x_k y_k.
    - cbn [app simulate_loop length s_x s_y last]. rewrite Nat.add_0_r.
      destruct (sim_loop m p th us ty user k l2 t_k x_k y_k) as [[bx by_ bu]|e]; reflexivity.
    - cbn [app simulate_loop]. destruct (dget Nat.eqb k th) as [th_k|]; [|reflexivity].
      destruct (dget Nat.eqb k us) as [u_k|]; [|reflexivity].
      destruct (step (get_dae_system m) x_k t t_k (p ++ th_k ++ u_k) y_k ty user) as [[xf zf]|e]; [|reflexivity].
      rewrite IH. destruct (sim_loop m p th us ty user (S k) l1 t xf (Some zf)) as [a|e] eqn:Ea; [|reflexivity].
      cbn [s_x s_y s_u length]. replace (k + S (length l1))%nat with (S k + length l1)%nat by lia.
      assert (E1 : last ((t, xf) :: s_x a) (t_k, x_k) = last (s_x a) (t, xf)).
      { destruct (s_x a) as [|q l]; [reflexivity|]. cbn [last]. clear. revert q. induction l as [|q' l IH]; intros q; [reflexivity|].
        cbn [last] in *. destruct l; [reflexivity|]. apply (IH q'). }
      rewrite E1. destruct (last (s_x a) (t, xf)) as [t' x'].
      assert (E2 : Some (snd (last ((t, zf) :: s_y a) (0%Q, []))) =
                   match s_y a with [] => Some zf | _ => Some (snd (last (s_y a) (0%Q, []))) end).
      { destruct (s_y a) as [|q l]; reflexivity. }
      rewrite E2. destruct (sim_loop m p th us ty user (S k + length l1) l2 t' x' _) as [b|e]; reflexivity.
  Qed.

  (** Only the entries from [k] on matter. *)
  Lemma loop_shift : forall m p th us th' us' ty user l k k' t_k x_k y_k,
      (forall i, (i < length l)%nat -> dget Nat.eqb (k + i)%nat th = dget Nat.eqb (k' + i)%nat th') ->
      (forall i, (i < length l)%nat -> dget Nat.eqb (k + i)%nat us = dget Nat.eqb (k' + i)%nat us') ->
      sim_loop m p th us ty user k l t_k x_k y_k = sim_loop m p th' us' ty user k' l t_k x_k y_k.
  Proof.
    intros m p th us th' us' ty user l. induction l as [|t l IH]; intros k k' t_k x_k y_k Hth Hus; [reflexivity|].
    cbn [simulate_loop]. pose proof (Hth 0%nat) as H1. pose proof (Hus 0%nat) as H2.
    rewrite !Nat.add_0_r in H1, H2. rewrite H1, H2 by (simpl; lia).
    destruct (dget Nat.eqb k' th') as [th_k|]; [|reflexivity].
    destruct (dget Nat.eqb k' us') as [u_k|]; [|reflexivity].
    destruct (step (get_dae_system m) x_k t t_k (p ++ th_k ++ u_k) y_k ty user) as [[xf zf]|e]; [|reflexivity].
    rewrite (IH (S k) (S k') t xf (Some zf)); [reflexivity| |].
    - intros i Hi. replace (S k + i)%nat with (k + S i)%nat by lia. replace (S k' + i)%nat with (k' + S i)%nat by lia.
      apply Hth. simpl; lia.
    - intros i Hi. replace (S k + i)%nat with (k + S i)%nat by lia. replace (S k' + i)%nat with (k' + S i)%nat by lia.
      apply Hus. simpl; lia.
  Qed.

  Lemma loop_fails_zero_step : forall m p th us ty user t_f k t_k x_k y_k i a b,
      nth_error (t_k :: t_f) i = Some a -> nth_error t_f i = Some b -> (a == b)%Q ->
      exists e, sim_loop m p th us ty user k t_f t_k x_k y_k = Raise e.
  Proof.
    intros m p th us ty user t_f. induction t_f as [|t t_f IH]; intros k t_k x_k y_k i a b Ha Hb Hab.
    - destruct i; discriminate.
    - cbn [simulate_loop]. destruct (dget Nat.eqb k th) as [th_k|]; [|eexists; reflexivity].
      destruct (dget Nat.eqb k us) as [u_k|]; [|eexists; reflexivity].
      destruct i as [|i]; cbn [nth_error] in Ha, Hb.
      + injection Ha as <-. injection Hb as <-. unfold dae_simulate.
        assert (E : Qeq_bool t t_k = true) by (apply Qeq_bool_iff; symmetry; exact Hab). rewrite E.
        eexists; reflexivity.
      + destruct (step (get_dae_system m) x_k t t_k (p ++ th_k ++ u_k) y_k ty user) as [[xf zf]|e]; [|eexists; reflexivity].
        destruct (IH (S k) t xf (Some zf) i a b Ha Hb Hab) as [e E]. rewrite E. eexists; reflexivity.
  Qed.

  Lemma loop_fails_missing : forall m p th us ty user t_f k t_k x_k y_k i,
      (i < length t_f)%nat ->
      dget Nat.eqb (k + i)%nat th = None \/ dget Nat.eqb (k + i)%nat us = None ->
      exists e, sim_loop m p th us ty user k t_f t_k x_k y_k = Raise e.
  Proof.
    intros m p th us ty user t_f. induction t_f as [|t t_f IH]; intros k t_k x_k y_k i Hi Hm; [simpl in Hi; lia|].
    cbn [simulate_loop]. destruct (dget Nat.eqb k th) as [th_k|] eqn:E1; [|eexists; reflexivity].
    destruct (dget Nat.eqb k us) as [u_k|] eqn:E2; [|eexists; reflexivity].
    destruct i as [|i].
    - rewrite Nat.add_0_r in Hm. destruct Hm; congruence.
    - destruct (step (get_dae_system m) x_k t t_k (p ++ th_k ++ u_k) y_k ty user) as [[xf zf]|e]; [|eexists; reflexivity].
      destruct (IH (S k) t xf (Some zf) i) as [e E]; [simpl in Hi; lia | replace (S k + i)%nat with (k + S i)%nat by lia; exact Hm|].
      rewrite E. eexists; reflexivity.
  Qed.

  (** A whole simulation. *)
  Definition free_control (m : model) : Prop :=
    existsb (fun s => negb (memb sym_eqb s (all_sym m))) (flat_map symbols (m_u_expr m)) = false.

  Lemma simulate_ok : forall m x_0 t_f t_0 u p th y_0 ty user s,
      sim m x_0 t_f t_0 u p th y_0 ty user = Ok s ->
      exists s', sim_loop m p (theta_sim th (length t_f)) (u_sim u (length t_f)) ty user 0 t_f t_0 x_0 y_0 = Ok s' /\
                 s = mkSim ((t_0, x_0) :: s_x s') (s_y s') (s_u s') /\ t_f <> [].
  Proof.
    intros m x_0 t_f t_0 u p th y_0 ty user s H. unfold simulate in H.
    destruct (_ && _); [discriminate|]. destruct (existsb _ _); [discriminate|].
    destruct (simulate_loop _ _ _ _ _ _ _ _ _ _ _ _ _ _) as [s'|e]; [|discriminate].
    destruct t_f as [|t t_f]; [discriminate|]. injection H as <-. exists s'.
    split; [reflexivity|]. split; [reflexivity | discriminate].
  Qed.
End Loop.

Lemma simulate_concatenation :
  forall integrate defaults F m x_0 l1 l2 t_0 us p thetas y_0 ty user,
    l1 <> [] -> l2 <> [] -> length us = (length l1 + length l2)%nat ->
    let run := simulate integrate defaults F m in
    let n := length l1 in
    run x_0 (l1 ++ l2) t_0 (UDict (per_element us)) p (Some (per_element thetas)) y_0 ty user =
    match run x_0 l1 t_0 (UDict (per_element (firstn n us))) p
              (Some (per_element (firstn n thetas))) y_0 ty user with
    | Raise e => Raise e
    | Ok a =>
        match run (snd (last_x a)) l2 (fst (last_x a)) (UDict (per_element (skipn n us))) p
                  (Some (per_element (skipn n thetas))) (Some (snd (last_y a))) ty user with
        | Raise e => Raise e
        | Ok b => Ok (then_sim a b)
        end
    end.
Proof.
  intros integrate defaults F m x_0 l1 l2 t_0 us p thetas y_0 ty user H1 H2 Hl run n.
  unfold run, simulate. cbn [u_sim theta_sim]. unfold per_element.
  assert (Len : forall (A : Type) (l : list A), length (enumerate l) = length l).
  { intros A l. unfold enumerate. rewrite combine_length, seq_length. lia. }
  assert (E0 : (1 <? length (l1 ++ l2))%nat && negb (length (enumerate us) =? length (l1 ++ l2))%nat = false).
  { rewrite Len, app_length, Hl, Nat.eqb_refl. apply andb_false_r. }
  assert (E1 : (1 <? length l1)%nat && negb (length (enumerate (firstn n us)) =? length l1)%nat = false).
  { rewrite Len, firstn_length, Hl. unfold n. replace (Nat.min (length l1) (length l1 + length l2)) with (length l1) by lia.
    rewrite Nat.eqb_refl. apply andb_false_r. }
  assert (E2 : (1 <? length l2)%nat && negb (length (enumerate (skipn n us)) =? length l2)%nat = false).
  { rewrite Len, skipn_length, Hl. unfold n. replace (length l1 + length l2 - length l1)%nat with (length l2) by lia.
    rewrite Nat.eqb_refl. apply andb_false_r. }
  rewrite E0, E1, E2. clear E0 E1 E2.
  destruct (existsb _ _); [reflexivity|].
  rewrite loop_app. fold n. cbn [Nat.add].
  assert (F1 : forall i (l : list (list Q)), (i < n)%nat ->
            dget Nat.eqb (0 + i)%nat (enumerate l) = dget Nat.eqb (0 + i)%nat (enumerate (firstn n l))).
  { intros i l Hi. rewrite !dget_enumerate. cbn [Nat.add]. symmetry. revert i Hi. generalize n. clear.
    intros n i Hi. revert n i Hi. induction l as [|a l IH]; intros [|n] i Hi; try lia; [destruct i; reflexivity|].
    destruct i as [|i]; [reflexivity|]. simpl. apply IH. lia. }
  assert (F2 : forall i (l : list (list Q)),
            dget Nat.eqb (n + i)%nat (enumerate l) = dget Nat.eqb (0 + i)%nat (enumerate (skipn n l))).
  { intros i l. rewrite !dget_enumerate. cbn [Nat.add]. generalize n. clear. intros n. revert l.
    induction n as [|n IH]; intros l; [reflexivity|]. destruct l as [|a l]; [destruct i; reflexivity|]. simpl. apply IH. }
  rewrite (loop_shift integrate defaults F m p _ _ (enumerate (firstn n thetas)) (enumerate (firstn n us)) ty user l1 0 0)
    by (intros i Hi; apply F1; exact Hi).
  destruct (simulate_loop integrate defaults F m p (enumerate (firstn n thetas)) (enumerate (firstn n us)) ty user 0 l1 t_0 x_0 y_0)
    as [a|e] eqn:Ea; [|reflexivity].
  destruct l1 as [|t1 l1']; [contradiction|].
  apply loop_times in Ea. destruct Ea as [T1 [T2 T3]].
  assert (Hx : s_x a <> []) by (intros E; rewrite E in T1; discriminate).
  assert (Hy : s_y a <> []) by (intros E; rewrite E in T2; discriminate).
  unfold last_x, last_y. cbn [s_x s_y].
  assert (El : last ((t_0, x_0) :: s_x a) (0%Q, []) = last (s_x a) (t_0, x_0)).
  { destruct (s_x a) as [|q l]; [contradiction|]. cbn [last]. clear. revert q. induction l as [|q' l IH]; intros q; [reflexivity|].
    cbn [last] in *. destruct l; [reflexivity|]. apply (IH q'). }
  rewrite El. destruct (last (s_x a) (t_0, x_0)) as [t' x'] eqn:Elast. cbn [fst snd].
  assert (Ey : match s_y a with [] => y_0 | _ => Some (snd (last (s_y a) (0%Q, []))) end =
               Some (snd (last (s_y a) (0%Q, [])))) by (destruct (s_y a); [contradiction | reflexivity]).
  rewrite Ey.
  rewrite (loop_shift integrate defaults F m p _ _ (enumerate (skipn n thetas)) (enumerate (skipn n us)) ty user l2 n 0)
    by (intros i Hi; apply F2).
  destruct (simulate_loop integrate defaults F m p (enumerate (skipn n thetas)) (enumerate (skipn n us)) ty user 0 l2 t' x' _)
    as [b|e]; [|reflexivity].
  destruct l2 as [|t2 l2']; [contradiction|]. reflexivity.
Qed.

(** ** Equilibrium *)

Lemma skipn_skipn_add : forall (A : Type) (l : list A) a b, skipn a (skipn b l) = skipn (a + b) l.
Proof.
  intros A l a b. revert l. induction b as [|b IH]; intros l; [rewrite Nat.add_0_r; reflexivity|].
  rewrite Nat.add_succ_r. destruct l as [|x l]; [rewrite !skipn_nil; reflexivity|]. simpl. apply IH.
Qed.

Lemma assign_app : forall env v w p q s, length v = length p ->
    assign env (v ++ w) (p ++ q) s = assign (assign env w q) v p s.
Proof.
  intros env v. induction v as [|a v IH]; intros w [|b p] q s H; simpl in *; try discriminate; [reflexivity|].
  destruct (Nat.eq_dec s a); [reflexivity|]. apply IH. lia.
Qed.

Lemma assign_notin : forall v p env s, ~ In s v -> assign env v p s = env s.
Proof.
  induction v as [|a v IH]; intros p env s H; [reflexivity|]. destruct p as [|b p]; [reflexivity|]. simpl.
  destruct (Nat.eq_dec s a) as [->|]; [exfalso; apply H; left; reflexivity|]. apply IH. intros K; apply H; right; exact K.
Qed.

Lemma eval_subst_const : forall F env e a q,
    eval F env (substitute e [a] [EConst q]) = eval F (assign env [a] [q]) e.
Proof.
  intros. rewrite eval_substitute. apply eval_ext. intros s _. unfold env_subst; simpl.
  destruct (Nat.eq_dec s a) as [->|H]; [rewrite Nat.eqb_refl; reflexivity|].
  rewrite (proj2 (Nat.eqb_neq s a) H). reflexivity.
Qed.

Lemma equilibrium_ok :
  forall root F m additional guess t_0 x y rest,
    (forall unknowns eqs g r env,
       root unknowns eqs g = Ok r -> length r = length unknowns /\
       forall e, In e eqs -> (eval F (assign env unknowns r) e == 0)%Q) ->
    find_equilibrium root m additional guess t_0 = Ok (x, y, rest) ->
    length x = length (m_x m) /\ length y = length (m_y m) /\
    length rest = (length (m_p m) + length (m_theta m))%nat /\
    forall env e, In e (ode m ++ m_alg m ++ additional) ->
      (eval F (assign env (m_t m :: m_tau m :: m_x m ++ m_y m ++ m_p m ++ m_theta m)
                          (t_0 :: 0 :: x ++ y ++ rest)) e == 0)%Q.
Proof.
  intros root F m additional guess t_0 x y rest Hroot H. unfold find_equilibrium in H.
  destruct (existsb _ _); [discriminate|].
  destruct (root _ _ _) as [r|e0] eqn:Er; [|discriminate]. injection H as <- <- <-.
  destruct (Hroot _ _ _ _ (fun _ => 0%Q) Er) as [Hl _].
  unfold equilibrium_unknowns in *. rewrite !app_length in Hl.
  assert (Hsplit : firstn (length (m_x m)) r ++ firstn (length (m_y m)) (skipn (length (m_x m)) r) ++
                   skipn (length (m_x m) + length (m_y m)) r = r).
  { rewrite Nat.add_comm, <- skipn_skipn_add, firstn_skipn, firstn_skipn. reflexivity. }
  split; [rewrite firstn_length; lia|]. split; [rewrite firstn_length, skipn_length; lia|].
  split; [rewrite skipn_length; lia|].
  intros env e He. rewrite Hsplit.
  destruct (Hroot _ _ _ _ env Er) as [_ Hz].
  specialize (Hz (substitute (substitute e [m_t m] [EConst t_0]) [m_tau m] [EConst 0%Q])).
  rewrite !eval_subst_const in Hz.
  assert (E : forall s,
      assign (assign (assign env (m_x m ++ m_y m ++ m_p m ++ m_theta m) r) [m_tau m] [0%Q]) [m_t m] [t_0] s =
      assign env (m_t m :: m_tau m :: m_x m ++ m_y m ++ m_p m ++ m_theta m) (t_0 :: 0%Q :: r) s) by reflexivity.
  rewrite (eval_ext F _ _ e (fun s _ => E s)) in Hz. apply Hz.
  unfold equilibrium_equations, subst_vec. apply in_map_iff. eexists. split; [reflexivity|].
  apply in_map_iff. exists e. split; [reflexivity | exact He].
Qed.

Lemma substitute_const_keeps : forall e a q s, s <> a -> In s (symbols e) -> In s (symbols (substitute e [a] [EConst q])).
Proof.
  induction e as [c|v|o e1 IH1 e2 IH2|f e IH]; intros a q s Hs Hin; cbn [substitute symbols] in *.
  - exact Hin.
  - destruct Hin as [<-|[]]. cbn [subst_lookup]. rewrite (proj2 (Nat.eqb_neq v a) Hs). left; reflexivity.
  - apply in_app_or in Hin. apply in_or_app. destruct Hin; [left; apply IH1 | right; apply IH2]; assumption.
  - apply IH; assumption.
Qed.

Lemma equilibrium_control :
  forall root m additional guess t_0 s e,
    In e (ode m ++ m_alg m ++ additional) -> mentions e s ->
    ~ In s (m_x m ++ m_y m ++ m_p m ++ m_theta m) -> s <> m_t m -> s <> m_tau m ->
    find_equilibrium root m additional guess t_0 = Raise CasadiError.
Proof.
  intros root m additional guess t_0 s e He Hm Hn Ht Htau. unfold find_equilibrium.
  assert (E : existsb (fun s => negb (memb sym_eqb s (equilibrium_unknowns m)))
                (flat_map symbols (equilibrium_equations m additional t_0)) = true).
  { apply existsb_exists. exists s. split.
    - apply in_flat_map. exists (substitute (substitute e [m_t m] [EConst t_0]) [m_tau m] [EConst 0%Q]). split.
      + unfold equilibrium_equations, subst_vec. apply in_map_iff. eexists. split; [reflexivity|].
        apply in_map_iff. exists e. split; [reflexivity | exact He].
      + apply substitute_const_keeps; [exact Htau|]. apply substitute_const_keeps; assumption.
    - apply negb_true_iff. destruct (memb sym_eqb s (equilibrium_unknowns m)) eqn:K; [|reflexivity].
      apply (memb_spec _ _ sym_eqb_eq) in K. contradiction. }
  rewrite E. reflexivity.
Qed.

Lemma w_C21_system_of_model :
  forall m,
    let d := get_dae_system m in
    d_x d = map EVar (m_x m) /\ d_ode d = ode m /\
    d_p d = map EVar (m_p m ++ m_theta m ++ m_u_par m) /\
    d_t d = Some (m_t m) /\ d_tau d = Some (m_tau m) /\
    (m_y m <> [] -> d_y d = map EVar (m_y m) /\ d_alg d = m_alg m) /\
    (m_y m = [] -> d_y d = [] /\ d_alg d = []).
Proof.
  intros m. unfold get_dae_system; cbn [d_x d_ode d_p d_t d_tau d_y d_alg].
  split; [reflexivity|]. split; [reflexivity|]. split.
  - rewrite <- !app_length.
    destruct (Nat.ltb_spec 0 (length (m_p m) + length (m_theta m) + length (m_u_par m)))%nat as [H|H].
    + rewrite <- app_assoc. rewrite !app_length. destruct (Nat.ltb_spec 0 (length (m_p m) + (length (m_theta m) + length (m_u_par m)))); [reflexivity | lia].
    + destruct (m_p m), (m_theta m), (m_u_par m); simpl in *; try lia. reflexivity.
  - split; [reflexivity|]. split; [reflexivity|]. split.
    + intros H. destruct (m_y m); [contradiction|]. split; reflexivity.
    + intros ->. split; reflexivity.
Qed.

Lemma w_C21_dictionary :
  forall d k v,
    dget String.eqb k (dae_system_dict d) = Some v <->
    (k = "x"%string /\ v = d_x d) \/ (k = "ode"%string /\ v = d_ode d) \/
    (k = "t"%string /\ v = match d_t d with Some t => [EVar t] | None => [] end) \/
    (d_alg d <> [] /\ ((k = "z"%string /\ v = d_y d) \/ (k = "alg"%string /\ v = d_alg d))) \/
    (d_p d <> [] /\ k = "p"%string /\ v = d_p d).
Proof.
  intros d k v. unfold dae_system_dict, dae_is_ode, dae_has_parameters, opt_sym.
  assert (Ea : (length (d_alg d) =? 0)%nat = match d_alg d with [] => true | _ => false end)
    by (destruct (d_alg d); reflexivity).
  assert (Ep : (0 <? length (d_p d))%nat = match d_p d with [] => false | _ => true end)
    by (destruct (d_p d); reflexivity).
  rewrite Ea, Ep.
  assert (Hd : forall l : list expr, l = [] \/ l <> []) by (intros [|]; [left; reflexivity | right; discriminate]).
  destruct (Hd (d_alg d)) as [Ha|Ha], (Hd (d_p d)) as [Hp|Hp];
    [rewrite Ha, Hp | rewrite Ha; destruct (d_p d) as [|p0 p'] eqn:Ed; [contradiction|]
    | rewrite Hp; destruct (d_alg d) as [|a0 a'] eqn:Ed; [contradiction|]
    | destruct (d_alg d) as [|a0 a'] eqn:Ed; [contradiction|]; destruct (d_p d) as [|p0 p'] eqn:Ed'; [contradiction|]];
    cbn [app dget];
    repeat match goal with |- context [String.eqb k ?n] => destruct (String.eqb_spec k n) as [->|]; cbn [app dget] end;
    (split; [intros E; try discriminate; try (injection E as <-); tauto |
             intros H; repeat destruct H as [H|H]; intuition (try congruence; try discriminate)]).
Qed.

Lemma w_C21_join_sizes :
  forall o d d',
    dae_join o d = (d', Ok tt) ->
    length (d_x d') = (length (d_x d) + length (d_x o))%nat /\
    length (d_y d') = (length (d_y d) + length (d_y o))%nat /\
    length (d_p d') = (length (d_p d) + length (d_p o))%nat /\
    length (d_ode d') = (length (d_ode d) + length (d_ode o))%nat /\
    length (d_alg d') = (length (d_alg d) + length (d_alg o))%nat /\
    d_t d' = d_t d /\ d_tau d' = d_tau d.
Proof.
  intros o d d' H. unfold dae_join in H. destruct (d_t o) as [t'|], (d_t d) as [t|]; try discriminate.
  destruct (d_tau o), (d_tau d); injection H as <-; unfold dae_substitute_variable, subst_vec; simpl;
    rewrite ?map_length, ?app_length; repeat split.
Qed.

Lemma w_C21_join_keeps_first :
  forall F env dx d t' tau' q q',
    ~ dae_mentions d t' -> ~ dae_mentions d tau' ->
    (dae_solves F (assign env [t'; tau'] [q; q']) dx d <-> dae_solves F env dx d).
Proof.
  intros F env dx d t' tau' q q' H1 H2. apply dae_solves_ext. intros s Hs. simpl.
  destruct (Nat.eq_dec s t') as [->|]; [contradiction|]. destruct (Nat.eq_dec s tau') as [->|]; [contradiction|].
  reflexivity.
Qed.

Lemma w_C21_algebraic_equations_dropped_refuted :
  exists m, m_alg m <> [] /\ d_alg (get_dae_system m) = [] /\
            ~ dhas String.eqb "alg"%string (dae_system_dict (get_dae_system m)) = true.
Proof.
  exists (set_alg [EVar 10] (new_model 1 2)). split; [discriminate|]. split; [reflexivity | discriminate].
Qed.

Lemma w_C21_tau_to_time :
  forall F d t_k t_kp1,
    (forall t tau, d_t d = Some t -> d_tau d = Some tau ->
       exists d', dae_convert_from_tau_to_time t_k t_kp1 d = (d', Ok tt) /\
         d_x d' = d_x d /\ d_y d' = d_y d /\ d_p d' = d_p d /\
         forall env dx,
           dae_solves F env dx d' <->
           dae_solves F (assign env [tau] [(env t - t_k) / (t_kp1 - t_k)]%Q) dx d) /\
    (d_t d = None \/ d_tau d = None ->
       dae_convert_from_tau_to_time t_k t_kp1 d = (d, Raise AttributeError)).
Proof.
  intros F d t_k t_kp1. split.
  - intros t tau Ht Htau. unfold dae_convert_from_tau_to_time. rewrite Ht, Htau.
    eexists. split; [reflexivity|]. repeat (split; [reflexivity|]). intros env dx.
    pose proof (dae_solves_subst F env (assign env [tau] [((env t - t_k) / (t_kp1 - t_k))%Q]) dx d [tau]
      [EBin ODiv (EBin OSub (EVar t) (EConst t_k)) (EConst (t_kp1 - t_k)%Q)]) as H.
    rewrite <- H; [reflexivity|]. intros e. rewrite ExprProofs.eval_substitute. apply ExprProofs.eval_ext. intros s _.
    unfold env_subst; simpl. destruct (Nat.eq_dec s tau) as [->|Hs].
    + rewrite Nat.eqb_refl. reflexivity.
    + rewrite (proj2 (Nat.eqb_neq s tau) Hs). reflexivity.
  - unfold dae_convert_from_tau_to_time. intros [->| ->]; [reflexivity|]. destruct (d_t d); reflexivity.
Qed.

Lemma w_C22_times :
  forall integrate defaults F m x_0 t_f t_0 u p theta y_0 ty user s,
    simulate integrate defaults F m x_0 t_f t_0 u p theta y_0 ty user = Ok s ->
    t_f <> [] /\ map fst (s_x s) = t_0 :: t_f /\ map fst (s_y s) = t_f /\ map fst (s_u s) = t_f /\
    nth_error (s_x s) 0 = Some (t_0, x_0).
Proof.
  intros integrate defaults F m x_0 t_f t_0 u p theta y_0 ty user s H.
  apply simulate_ok in H. destruct H as [s' [H [-> Hne]]]. apply loop_times in H. destruct H as [H1 [H2 H3]].
  simpl. rewrite H1, H2, H3. repeat split. exact Hne.
Qed.

Lemma w_C22_elements_chained :
  forall integrate defaults F m x_0 t_f t_0 u p theta y_0 ty user s i t,
    simulate integrate defaults F m x_0 t_f t_0 u p theta y_0 ty user = Ok s ->
    nth_error t_f i = Some t ->
    exists t_i x_i y_i th_i u_i xf zf,
      nth_error (s_x s) i = Some (t_i, x_i) /\
      y_i = match i with O => y_0 | S i' => option_map snd (nth_error (s_y s) i') end /\
      dget Nat.eqb i (theta_sim theta (length t_f)) = Some th_i /\
      dget Nat.eqb i (u_sim u (length t_f)) = Some u_i /\
      dae_simulate integrate defaults (get_dae_system m) x_i t t_i (p ++ th_i ++ u_i) y_i ty user
        = Ok (xf, zf) /\
      nth_error (s_x s) (S i) = Some (t, xf) /\ nth_error (s_y s) i = Some (t, zf) /\
      nth_error (s_u s) i = Some (t, f_u F m t xf zf p th_i u_i).
Proof.
  intros integrate defaults F m x_0 t_f t_0 u p theta y_0 ty user s i t H Hi.
  apply simulate_ok in H. destruct H as [s' [H [-> Hne]]].
  destruct (loop_chained _ _ _ _ _ _ _ _ _ _ _ _ _ _ _ _ _ H Hi)
    as [t_i [x_i [y_i [th_i [u_i [xf [zf [A1 [A2 [A3 [A4 [A5 [A6 [A7 A8]]]]]]]]]]]]]].
  exists t_i, x_i, y_i, th_i, u_i, xf, zf. repeat split; assumption.
Qed.

Lemma w_C22_integrator_call :
  forall integrate defaults d x_0 t_f t_0 p y_0 ty user r,
    NoDup (map fst user) ->
    dae_simulate integrate defaults d x_0 t_f t_0 p y_0 ty user = Ok r ->
    exists c, integrate c = Ok r /\ ic_x0 c = x_0 /\ ic_p c = p /\
      ic_z0 c = (match d_alg d with [] => None | _ => y_0 end) /\
      ic_dae c = dae_system_dict d /\
      (forall k, k <> "name"%string -> dget String.eqb k (ic_opts c) = winning_option defaults user t_f t_0 k) /\
      ~ (t_f == t_0)%Q /\ (forall tau, d_tau d = Some tau -> ~ dae_mentions d tau).
Proof.
  intros integrate defaults d x_0 t_f t_0 p y_0 ty user r Hn H. unfold dae_simulate in H.
  destruct (Qeq_bool t_f t_0) eqn:Eq; [discriminate|].
  destruct (match d_tau d with Some tau => dae_depends_on d [tau] | None => false end) eqn:Et; [discriminate|].
  destruct (integrator_options defaults (simulation_options t_f t_0 user)) as [name opts] eqn:Eo.
  destruct (select_plugin d ty) as [plugin|e] eqn:Ep; [|discriminate].
  eexists. split; [exact H|]. cbn [ic_x0 ic_p ic_z0 ic_dae ic_opts].
  split; [reflexivity|]. split; [reflexivity|]. split.
  { unfold dae_is_dae, dae_is_ode. destruct (d_alg d); reflexivity. }
  split; [reflexivity|]. split.
  { intros k Hk. rewrite <- (options_win defaults user t_f t_0 k Hn Hk), Eo. reflexivity. }
  split. { intros E. apply Qeq_bool_iff in E. congruence. }
  intros tau Htau [e [He Hm]]. rewrite Htau in Et. unfold dae_depends_on, depends_on_vec in Et.
  assert (Hc : existsb (fun e => depends_on e [tau]) (d_ode d ++ d_alg d) = true).
  { apply existsb_exists. exists e. split; [exact He|]. apply ExprProofs.depends_on_spec.
    exists tau. split; [exact Hm | left; reflexivity]. }
  congruence.
Qed.

Lemma w_C22_control_sizes :
  forall integrate defaults F m x_0 t_f t_0 us p theta y_0 ty user,
    (1 < length t_f)%nat -> length us <> length t_f ->
    simulate integrate defaults F m x_0 t_f t_0 (UDict us) p theta y_0 ty user = Raise ValueError.
Proof.
  intros integrate defaults F m x_0 t_f t_0 us p theta y_0 ty user H1 H2. unfold simulate. cbn [u_sim].
  rewrite (proj2 (Nat.ltb_lt _ _) H1), (proj2 (Nat.eqb_neq _ _) H2). reflexivity.
Qed.

Lemma w_C22_fails :
  forall integrate defaults F m x_0 t_f t_0 u p theta y_0 ty user,
    (exists i a b, nth_error (t_0 :: t_f) i = Some a /\ nth_error t_f i = Some b /\ (a == b)%Q) \/
    (exists i th, theta = Some th /\ (i < length t_f)%nat /\ dget Nat.eqb i th = None) \/
    (exists i us, u = UDict us /\ (i < length t_f)%nat /\ dget Nat.eqb i us = None) \/
    t_f = [] ->
    exists e, simulate integrate defaults F m x_0 t_f t_0 u p theta y_0 ty user = Raise e.
Proof.
  intros integrate defaults F m x_0 t_f t_0 u p theta y_0 ty user H. unfold simulate.
  destruct (_ && _); [eexists; reflexivity|]. destruct (existsb _ _); [eexists; reflexivity|].
  destruct H as [[i [a [b [H1 [H2 H3]]]]]|[[i [th [-> [H1 H2]]]]|[[i [us [-> [H1 H2]]]]| -> ]]].
  - destruct (loop_fails_zero_step integrate defaults F m p (theta_sim theta (length t_f)) (u_sim u (length t_f))
                ty user t_f 0 t_0 x_0 y_0 i a b H1 H2 H3) as [e E]. rewrite E. eexists; reflexivity.
  - destruct (loop_fails_missing integrate defaults F m p (theta_sim (Some th) (length t_f)) (u_sim u (length t_f))
                ty user t_f 0 t_0 x_0 y_0 i H1 (or_introl H2)) as [e E]. rewrite E. eexists; reflexivity.
  - destruct (loop_fails_missing integrate defaults F m p (theta_sim theta (length t_f)) (u_sim (UDict us) (length t_f))
                ty user t_f 0 t_0 x_0 y_0 i H1 (or_intror H2)) as [e E]. rewrite E. eexists; reflexivity.
  - simpl. eexists; reflexivity.
Qed.

Lemma w_C22_zero_length_step :
  forall integrate defaults d x_0 t_f t_0 p y_0 ty user,
    (t_f == t_0)%Q ->
    dae_simulate integrate defaults d x_0 t_f t_0 p y_0 ty user = Raise ValueError.
Proof.
  intros. unfold dae_simulate. rewrite (proj2 (Qeq_bool_iff _ _)) by assumption. reflexivity.
Qed.

Lemma w_C23_selection :
  forall d ty,
    let ode_system := match d_alg d with [] => true | _ => false end in
    select_plugin d ty =
    if String.eqb ty "implicit" then Ok (if ode_system then "cvodes" else "idas")%string
    else if String.eqb ty "explicit" then Ok "rk"%string
    else if existsb (String.eqb ty) ["rk"; "collocation"; "cvodes"; "idas"]%string then Ok ty
    else Raise ValueError.
Proof.
  intros d ty ode_system. rewrite plugin_cases. unfold ode_system, dae_is_ode.
  destruct (d_alg d); reflexivity.
Qed.

Lemma w_C23_name :
  forall defaults user t_f t_0,
    NoDup (map fst user) ->
    fst (integrator_options defaults (simulation_options t_f t_0 user)) =
    match dget String.eqb "name"%string user with Some v => v | None => OptStr "integrator"%string end.
Proof.
  intros defaults user t_f t_0 Hn. unfold integrator_options, simulation_options. cbn [fst].
  rewrite dget_dupdate by exact Hn. destruct (dget String.eqb "name"%string user); reflexivity.
Qed.

Lemma w_C23_unknown_name :
  forall integrate defaults d x_0 t_f t_0 p y_0 ty user,
    existsb (String.eqb ty) ["implicit"; "explicit"; "rk"; "collocation"; "cvodes"; "idas"]%string = false ->
    (forall tau, d_tau d = Some tau -> ~ dae_mentions d tau) ->
    dae_simulate integrate defaults d x_0 t_f t_0 p y_0 ty user = Raise ValueError.
Proof.
  intros integrate defaults d x_0 t_f t_0 p y_0 ty user Hty Htau. unfold dae_simulate.
  destruct (Qeq_bool t_f t_0); [reflexivity|].
  destruct (match d_tau d with Some tau => dae_depends_on d [tau] | None => false end) eqn:Et.
  - exfalso. destruct (d_tau d) as [tau|] eqn:E; [|discriminate]. unfold dae_depends_on, depends_on_vec in Et.
    apply existsb_exists in Et. destruct Et as [e [He Hd]]. apply ExprProofs.depends_on_spec in Hd.
    destruct Hd as [s [Hs [<-|[]]]]. apply (Htau tau eq_refl). exists e. split; assumption.
  - destruct (integrator_options _ _) as [name opts]. rewrite plugin_cases.
    cbn [existsb] in Hty. repeat (apply orb_false_iff in Hty; destruct Hty as [? Hty]).
    rewrite H, H0. unfold memb. cbn [existsb]. rewrite H1, H2, H3, H4. reflexivity.
Qed.

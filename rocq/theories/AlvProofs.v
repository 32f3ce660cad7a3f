(** Proofs for the search of algebraic variables and the inclusion of variables. *)
From Coq Require Import Lia.
From Verif Require Import Base BaseProofs UtilModel ExprModel ExprProofs SysModel SysSpec SysProofs AlvModel AlvSpec.
Local Open Scope list_scope.
Local Open Scope nat_scope.

Lemma assign_app : forall v q env v' q' s, length v = length q ->
    assign env (v ++ v') (q ++ q') s = assign (assign env v' q') v q s.
Proof.
  induction v as [|a v IH]; intros [|b q] env v' q' s L; try discriminate L; [reflexivity|]. cbn [app assign].
  destruct (Nat.eq_dec s a); [reflexivity|]. apply IH. injection L as L. exact L.
Qed.
Lemma env_subst_numbers : forall F env v q s, env_subst F env v (map EConst q) s = assign env v q s.
Proof.
  intros F env v. unfold env_subst. induction v as [|a v IH]; intros [|b q] s; try reflexivity. cbn [subst_lookup assign map].
  destruct (Nat.eqb_spec s a) as [->|N].
  - destruct (Nat.eq_dec a a); [reflexivity|contradiction].
  - destruct (Nat.eq_dec s a); [contradiction|]. apply IH.
Qed.
Lemma substitute_keeps : forall e v vdef s, ~ In s v -> In s (symbols e) -> In s (symbols (substitute e v vdef)).
Proof.
  assert (L : forall v vdef s, ~ In s v -> subst_lookup s v vdef = EVar s).
  { induction v as [|a v IH]; intros [|b vdef] s N; try reflexivity. cbn. destruct (Nat.eqb_spec s a) as [->|]; [exfalso; apply N; left; reflexivity|].
    apply IH. intros H. apply N. right. exact H. }
  induction e as [c|a|o e1 IH1 e2 IH2|f e IH]; intros v vdef s N I; cbn [substitute symbols] in *.
  - exact I.
  - destruct I as [<-|[]]. rewrite L by exact N. left. reflexivity.
  - apply in_app_or in I. apply in_or_app. destruct I; [left; apply IH1|right; apply IH2]; assumption.
  - apply IH; assumption.
Qed.

Lemma find_ok : forall root F m x u guess t p theta y,
    (forall unknowns eqs g r env,
       root unknowns eqs g = Ok r -> length r = length unknowns /\
       forall e, In e eqs -> (eval F (assign env unknowns r) e == 0)%Q) ->
    length x = length (m_x m) -> length u = length (m_u m) ->
    length (of_option p) = length (m_p m) -> length (of_option theta) = length (m_theta m) ->
    find_algebraic_variable root m x u guess t p theta = Ok y ->
    length y = length (m_y m) /\
    forall env e, In e (m_alg m) ->
      (eval F (assign env (m_t m :: m_x m ++ m_u m ++ m_p m ++ m_theta m ++ m_y m)
                          (t :: x ++ u ++ of_option p ++ of_option theta ++ y)) e == 0)%Q.
Proof.
  intros root F m x u guess t p theta y Hroot Lx Lu Lp Lt H. unfold find_algebraic_variable, substitute_numbers in H.
  fold (of_option p) (of_option theta) in H. cbn zeta in H.
  assert (L : length (m_t m :: m_x m ++ m_u m ++ m_p m ++ m_theta m) = length (t :: x ++ u ++ of_option p ++ of_option theta)).
  { cbn [length]. rewrite !app_length. lia. }
  rewrite (proj2 (Nat.eqb_eq _ _) L) in H. destruct (existsb _ _); [discriminate|].
  split; [exact (proj1 (Hroot _ _ _ _ (fun _ => 0%Q) H))|]. intros env e I.
  destruct (Hroot _ _ _ _ env H) as [_ Hz].
  specialize (Hz (substitute e (m_t m :: m_x m ++ m_u m ++ m_p m ++ m_theta m) (map EConst (t :: x ++ u ++ of_option p ++ of_option theta)))).
  rewrite eval_substitute in Hz.
  rewrite (eval_ext F _ (assign env (m_t m :: m_x m ++ m_u m ++ m_p m ++ m_theta m ++ m_y m)
                          (t :: x ++ u ++ of_option p ++ of_option theta ++ y)) e) in Hz.
  - apply Hz. unfold subst_vec. apply in_map_iff. exists e. split; [reflexivity|exact I].
  - intros s _. rewrite env_subst_numbers.
    pose proof (assign_app (m_t m :: m_x m ++ m_u m ++ m_p m ++ m_theta m) (t :: x ++ u ++ of_option p ++ of_option theta) env (m_y m) y s L) as A.
    rewrite <- A. cbn [app]. rewrite <- !app_assoc. reflexivity.
Qed.

Lemma find_sizes : forall root m x u guess t p theta,
    length x + length u + length (of_option p) + length (of_option theta) <>
      length (m_x m) + length (m_u m) + length (m_p m) + length (m_theta m) ->
    x ++ u ++ of_option p ++ of_option theta <> [] ->
    find_algebraic_variable root m x u guess t p theta = Raise CasadiError.
Proof.
  intros root m x u guess t p theta N V. unfold find_algebraic_variable, substitute_numbers.
  fold (of_option p) (of_option theta). cbn zeta. match goal with |- context[Nat.eqb ?a ?b] => destruct (Nat.eqb_spec a b) as [E|_] end.
  - exfalso. apply N. cbn [length] in E. rewrite !app_length in E. lia.
  - destruct (x ++ u ++ of_option p ++ of_option theta); [contradiction|reflexivity].
Qed.

Lemma find_free : forall root m x u guess t p theta s e,
    In e (m_alg m) -> mentions e s -> ~ In s (m_t m :: m_x m ++ m_u m ++ m_p m ++ m_theta m ++ m_y m) ->
    find_algebraic_variable root m x u guess t p theta = Raise CasadiError.
Proof.
  intros root m x u guess t p theta s e I M N. unfold find_algebraic_variable. cbn zeta.
  set (known := m_t m :: m_x m ++ m_u m ++ m_p m ++ m_theta m).
  assert (Nk : ~ In s known /\ ~ In s (m_y m)).
  { replace (m_t m :: m_x m ++ m_u m ++ m_p m ++ m_theta m ++ m_y m) with (known ++ m_y m) in N by (unfold known; cbn; rewrite <- !app_assoc; reflexivity).
    split; intros H; apply N; apply in_or_app; tauto. }
  destruct Nk as [Nk Ny].
  assert (Fr : forall vdef, existsb (fun s => negb (memb sym_eqb s (m_y m))) (flat_map symbols (subst_vec (m_alg m) known vdef)) = true).
  { intros vdef. apply existsb_exists. exists s. split.
    - apply in_flat_map. exists (substitute e known vdef). split; [unfold subst_vec; apply in_map_iff; exists e; split; [reflexivity|exact I]|].
      apply substitute_keeps; assumption.
    - apply negb_true_iff. destruct (memb sym_eqb s (m_y m)) eqn:K; [|reflexivity].
      apply (memb_spec _ _ Nat.eqb_eq) in K. contradiction. }
  unfold substitute_numbers. destruct (Nat.eqb _ _); [rewrite Fr; reflexivity|].
  destruct (x ++ u ++ match p with Some v => v | None => [] end ++ match theta with Some v => v | None => [] end); [|reflexivity].
  rewrite Fr. reflexivity.
Qed.

Lemma map_repeat : forall (A B : Type) (f : A -> B) a n, map f (repeat a n) = repeat (f a) n.
Proof. induction n; cbn; congruence. Qed.
Lemma find_time_only : forall root m guess t,
    find_algebraic_variable root m [] [] guess t None None =
    find_algebraic_variable root m (repeat t (length (m_x m))) (repeat t (length (m_u m))) guess t
      (Some (repeat t (length (m_p m)))) (Some (repeat t (length (m_theta m)))).
Proof.
  intros root m guess t. unfold find_algebraic_variable. cbn zeta. cbn [app].
  set (known := m_t m :: m_x m ++ m_u m ++ m_p m ++ m_theta m).
  assert (Ek : t :: repeat t (length (m_x m)) ++ repeat t (length (m_u m)) ++ repeat t (length (m_p m)) ++ repeat t (length (m_theta m)) =
               repeat t (length known)).
  { unfold known. cbn [length repeat]. rewrite !app_length, !repeat_app. reflexivity. }
  rewrite Ek. unfold substitute_numbers. rewrite repeat_length, Nat.eqb_refl.
  destruct (Nat.eqb_spec (length known) (length [t])) as [E|N].
  - rewrite E. reflexivity.
  - rewrite map_repeat. reflexivity.
Qed.

Local Open Scope cmd_scope.
Lemma given_some : forall a f m, a <> Some (Several []) ->
    given_vars a f m = match a with None => (m, Ok tt) | Some _ => f (all_of a) m end.
Proof. intros [[v|[|l ls]]|] f m N; try reflexivity. contradiction. Qed.

Lemma include_variables_ok : forall x y u p theta x_0 m,
    (forall a, In a [x; y; u; p; theta] -> a <> Some (Several [])) ->
    (x <> None -> all_of x <> []) -> (x = None -> x_0 = []) -> NoDup (all_of x) ->
    (forall s, In s (all_of x) -> ~ In s (dkeys (m_ode m))) ->
    exists m', include_variables x y u p theta x_0 m = (m', Ok tt) /\
      m_x m' = m_x m ++ all_of x /\ m_x_0 m' = m_x_0 m ++ x_0 /\
      m_ode m' = m_ode m ++ map (fun s => (s, None)) (all_of x) /\
      m_y m' = m_y m ++ all_of y /\ m_u m' = m_u m ++ all_of u /\ m_u_par m' = m_u_par m ++ all_of u /\
      m_u_expr m' = m_u_expr m ++ map EVar (all_of u) /\ m_p m' = m_p m ++ all_of p /\
      m_theta m' = m_theta m ++ all_of theta /\ m_alg m' = m_alg m /\ ode m' = ode m /\
      m_parametrized m' = m_parametrized m /\ m_t m' = m_t m /\ m_tau m' = m_tau m.
Proof.
  intros x y u p theta x_0 m G Nx N0 ND Hin. unfold include_variables.
  set (m1 := with_states (all_of x) x_0 m).
  assert (E1 : given_vars x (fun v => match v with [] => craise NotImplementedErr | _ => include_state v None x_0 end) m = (m1, Ok tt)).
  { rewrite given_some by (apply G; left; reflexivity). destruct x as [a|].
    - destruct (all_of (Some a)) as [|s v] eqn:E; [exfalso; apply Nx; [discriminate|reflexivity]|].
      unfold include_state, cbind, cmodify. rewrite include_state_loop_fresh; [reflexivity|exact ND|exact Hin].
    - subst m1. rewrite (N0 eq_refl). cbn. unfold with_states. cbn. rewrite !app_nil_r. destruct m; reflexivity. }
  unfold cbind at 1. rewrite E1. clear E1.
  assert (Es : forall a b, flat_map (fun o : option expr => match o with Some e => [e] | None => [] end) (map snd (a ++ map (fun s : sym => (s, None)) b)) =
               flat_map (fun o : option expr => match o with Some e => [e] | None => [] end) (map (@snd sym (option expr)) a)).
  { intros a b. rewrite map_app, flat_map_app, map_map. cbn [snd]. replace (flat_map _ (map _ b)) with (@nil expr); [apply app_nil_r|].
    clear. induction b; [reflexivity|exact IHb]. }
  assert (R : forall m', exists m2,
     (fun mm => (given_vars y (fun v => include_algebraic v None) ;;; given_vars u include_control ;;; given_vars p include_parameter ;;;
      given_vars theta include_theta) mm) m' = (m2, Ok tt) /\
      m2 = set_theta (m_theta m' ++ all_of theta) (set_p (m_p m' ++ all_of p) (set_u_par (m_u_par m' ++ all_of u)
             (set_u_expr (m_u_expr m' ++ map EVar (all_of u)) (set_u (m_u m' ++ all_of u) (set_y (m_y m' ++ all_of y) m')))))).
  { intros m'. unfold cbind. rewrite given_some by (apply G; right; left; reflexivity).
    destruct m' as [a1 a2 a3 a4 a5 a6 a7 a8 a9 a10 a11 a12 a13 a14].
    destruct y as [y|]; cbn -[all_of]; rewrite given_some by (apply G; do 2 right; left; reflexivity);
    (destruct u as [u|]; cbn -[all_of]; rewrite given_some by (apply G; do 3 right; left; reflexivity));
    (destruct p as [p|]; cbn -[all_of]; rewrite given_some by (apply G; do 4 right; left; reflexivity));
    (destruct theta as [theta|]; cbn -[all_of]); (eexists; split; [reflexivity|]); unfold set_y; cbn -[all_of];
    change (all_of None) with (@nil sym); cbn [map]; rewrite ?app_nil_r; reflexivity. }
  destruct (R m1) as [m2 [E2 ->]]. exists (set_theta (m_theta m1 ++ all_of theta) (set_p (m_p m1 ++ all_of p) (set_u_par (m_u_par m1 ++ all_of u)
             (set_u_expr (m_u_expr m1 ++ map EVar (all_of u)) (set_u (m_u m1 ++ all_of u) (set_y (m_y m1 ++ all_of y) m1)))))).
  split; [exact E2|]. clear E2 R. subst m1. unfold with_states. repeat (split; [reflexivity|]).
  split; [|split; [reflexivity|split; reflexivity]]. unfold ode, dvals. cbn [set_theta set_p set_u_par set_u_expr set_u set_y set_ode m_ode].
  apply Es.
Qed.

Lemma substitute_numbers_symbols : forall e v q s, length v = length q ->
    In s (symbols (substitute e v (map EConst q))) -> In s (symbols e) /\ ~ In s v.
Proof.
  assert (K : forall v q a s, length v = length q -> In s (symbols (subst_lookup a v (map EConst q))) -> a = s /\ ~ In s v).
  { induction v as [|b v IH]; intros [|c q] a s L I; try discriminate L.
    - cbn in I. destruct I as [<-|[]]. split; [reflexivity|intros []].
    - cbn [subst_lookup map] in I. destruct (Nat.eqb_spec a b) as [->|N]; [destruct I|].
      injection L as L. destruct (IH q a s L I) as [<- J]. split; [reflexivity|].
      intros [E|H]; [congruence|exact (J H)]. }
  induction e as [c|a|o e1 IH1 e2 IH2|f e IH]; intros v q s L I; cbn [substitute symbols] in *.
  - destruct I.
  - destruct (K _ _ _ _ L I) as [<- N]. split; [left; reflexivity|exact N].
  - apply in_app_or in I. destruct I as [I|I]; [destruct (IH1 _ _ _ L I)|destruct (IH2 _ _ _ L I)]; (split; [apply in_or_app; tauto|assumption]).
  - exact (IH _ _ _ L I).
Qed.

Lemma find_called : forall root m x u guess t p theta,
    length x = length (m_x m) -> length u = length (m_u m) ->
    length (of_option p) = length (m_p m) -> length (of_option theta) = length (m_theta m) ->
    (forall e s, In e (m_alg m) -> mentions e s ->
       In s (m_t m :: m_x m ++ m_u m ++ m_p m ++ m_theta m ++ m_y m)) ->
    exists eqs,
      find_algebraic_variable root m x u guess t p theta =
        root (m_y m) eqs (match guess with Some g => g | None => map (fun _ => 1%Q) (m_y m) end) /\
      forall F env, map (eval F env) eqs =
        map (eval F (assign env (m_t m :: m_x m ++ m_u m ++ m_p m ++ m_theta m)
                                (t :: x ++ u ++ of_option p ++ of_option theta))) (m_alg m).
Proof.
  intros root m x u guess t p theta Lx Lu Lp Lt H. unfold find_algebraic_variable, substitute_numbers.
  fold (of_option p) (of_option theta). cbn zeta.
  assert (L : length (m_t m :: m_x m ++ m_u m ++ m_p m ++ m_theta m) = length (t :: x ++ u ++ of_option p ++ of_option theta)).
  { cbn [length]. rewrite !app_length. lia. }
  rewrite (proj2 (Nat.eqb_eq _ _) L).
  match goal with |- context[existsb ?f ?l] => destruct (existsb f l) eqn:E end.
  - exfalso. apply existsb_exists in E. destruct E as [s [I N]]. apply in_flat_map in I. destruct I as [e' [I J]].
    unfold subst_vec in I. apply in_map_iff in I. destruct I as [e [<- I]].
    destruct (substitute_numbers_symbols _ _ _ _ L J) as [Se Nk]. specialize (H e s I Se).
    apply negb_true_iff in N. apply Bool.not_true_iff_false in N. apply N. apply (memb_spec _ _ Nat.eqb_eq).
    replace (m_t m :: m_x m ++ m_u m ++ m_p m ++ m_theta m ++ m_y m)
      with ((m_t m :: m_x m ++ m_u m ++ m_p m ++ m_theta m) ++ m_y m) in H by (cbn; rewrite <- !app_assoc; reflexivity).
    apply in_app_or in H. destruct H as [H|H]; [contradiction|exact H].
  - eexists. split.
    + f_equal. destruct guess; [reflexivity|]. clear. induction (m_y m); cbn; congruence.
    + intros F env. unfold subst_vec. rewrite map_map. apply map_ext. intros e. rewrite eval_substitute.
      apply eval_ext. intros s _. apply env_subst_numbers.
Qed.

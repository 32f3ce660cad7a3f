(** Further proofs about DAE systems, simulation and equilibrium. *)
From Coq Require Import String Lia.
From Verif Require Import Base BaseProofs UtilModel ExprModel ExprProofs SysModel SysSpec SysProofs SimModel SimSpec SimProofs.
Local Open Scope list_scope.
Local Open Scope nat_scope.

Lemma subst_env : forall F env v w s, length v = length w ->
    env_subst F env v w s = assign env v (map (eval F env) w) s.
Proof.
  intros F env v. unfold env_subst. induction v as [|a v IH]; intros [|b w] s L; try discriminate L; [reflexivity|].
  cbn [subst_lookup assign map]. destruct (Nat.eqb_spec s a) as [->|N].
  - destruct (Nat.eq_dec a a); [reflexivity|contradiction].
  - destruct (Nat.eq_dec s a); [contradiction|]. injection L as L. apply IH, L.
Qed.
Lemma subst_values : forall F env v w es, length v = length w ->
    map (eval F env) (subst_vec es v w) = map (eval F (assign env v (map (eval F env) w))) es.
Proof.
  intros F env v w es L. unfold subst_vec. rewrite map_map. apply map_ext. intros e. rewrite eval_substitute.
  apply eval_ext. intros s _. apply subst_env, L.
Qed.
Lemma substitute_variable_values : forall F env d old new,
    length old = length new ->
    let d' := dae_substitute_variable old new d in
    let at_new := map (eval F (assign env old (map (eval F env) new))) in
    map (eval F env) (d_x d') = at_new (d_x d) /\ map (eval F env) (d_y d') = at_new (d_y d) /\
    map (eval F env) (d_p d') = at_new (d_p d) /\ map (eval F env) (d_ode d') = at_new (d_ode d) /\
    map (eval F env) (d_alg d') = at_new (d_alg d) /\ d_t d' = d_t d /\ d_tau d' = d_tau d.
Proof. intros F env d old new L. repeat split; apply subst_values, L. Qed.

(** ** Controls and parameters that are not given for each element *)

Lemma same_everywhere : forall (A : Type) (v : A) n a,
    map (fun el => (el, v)) (seq a n) = combine (seq a (length (repeat v n))) (repeat v n).
Proof. intros A v n. induction n as [|n IH]; intros a; [reflexivity|]. cbn. rewrite IH. reflexivity. Qed.
Lemma simulate_defaults : forall integrate defaults F m x_0 t_f t_0 p y_0 ty user,
    let run := simulate integrate defaults F m x_0 t_f t_0 in
    let n := length t_f in
    (forall v theta, run (UVec v) p theta y_0 ty user = run (UDict (per_element (repeat v n))) p theta y_0 ty user) /\
    (forall theta, run UNone p theta y_0 ty user = run (UDict (per_element (repeat [] n))) p theta y_0 ty user) /\
    (forall u, run u p None y_0 ty user = run u p (Some (per_element (repeat [] n))) y_0 ty user).
Proof.
  intros integrate defaults F m x_0 t_f t_0 p y_0 ty user run n. unfold run, simulate, per_element, enumerate. cbn [u_sim theta_sim].
  fold n. rewrite !same_everywhere. repeat split; intros; cbn [u_sim theta_sim]; rewrite ?same_everywhere; reflexivity.
Qed.

(** ** When a simulation is refused or accepted *)

Lemma foreign_symbol : forall m,
    existsb (fun s => negb (memb sym_eqb s (all_sym m))) (flat_map symbols (m_u_expr m)) = true <->
    exists e s, In e (m_u_expr m) /\ mentions e s /\ ~ In s (m_t m :: m_x m ++ m_y m ++ m_p m ++ m_theta m ++ m_u_par m).
Proof.
  intros m. rewrite existsb_exists. split.
  - intros [s [I N]]. apply in_flat_map in I. destruct I as [e [I J]]. exists e, s. split; [exact I|]. split; [exact J|].
    intros K. apply negb_true_iff in N. apply Bool.not_true_iff_false in N. apply N, (memb_spec _ _ sym_eqb_eq), K.
  - intros [e [s [I [M N]]]]. exists s. split; [apply in_flat_map; exists e; split; assumption|].
    apply negb_true_iff, Bool.not_true_iff_false. intros K. apply N, (memb_spec _ _ sym_eqb_eq), K.
Qed.
Lemma simulate_foreign : forall integrate defaults F m x_0 t_f t_0 u p theta y_0 ty user e s,
    (forall us, u = UDict us -> length us = length t_f) ->
    In e (m_u_expr m) -> mentions e s -> ~ In s (m_t m :: m_x m ++ m_y m ++ m_p m ++ m_theta m ++ m_u_par m) ->
    simulate integrate defaults F m x_0 t_f t_0 u p theta y_0 ty user = Raise CasadiError.
Proof.
  intros integrate defaults F m x_0 t_f t_0 u p theta y_0 ty user e s L I M N. unfold simulate.
  rewrite (proj2 (foreign_symbol m)) by (exists e, s; auto).
  replace (length (u_sim u (length t_f)) =? length t_f) with true; [rewrite andb_false_r; reflexivity|].
  symmetry. apply Nat.eqb_eq. destruct u; cbn [u_sim]; rewrite ?map_length, ?seq_length; try reflexivity. apply L. reflexivity.
Qed.

Lemma accepted_loop : forall integrate defaults F m p th us ty user,
    (forall c, exists r, integrate c = Ok r) ->
    ~ dae_mentions (get_dae_system m) (m_tau m) ->
    In ty ["implicit"; "explicit"; "rk"; "collocation"; "cvodes"; "idas"]%string ->
    forall t_f k t_k x_k y_k,
    (forall i a b, nth_error (t_k :: t_f) i = Some a -> nth_error t_f i = Some b -> ~ (a == b)%Q) ->
    (forall i, i < length t_f -> dget Nat.eqb (k + i) th <> None /\ dget Nat.eqb (k + i) us <> None) ->
    exists s, simulate_loop integrate defaults F m p th us ty user k t_f t_k x_k y_k = Ok s.
Proof.
  intros integrate defaults F m p th us ty user HI HT HN.
  induction t_f as [|t t_f IH]; intros k t_k x_k y_k HD HK; [eexists; reflexivity|].
  cbn [simulate_loop].
  assert (K0 := HK 0 (Nat.lt_0_succ _)). rewrite Nat.add_0_r in K0. destruct K0 as [K1 K2].
  destruct (dget Nat.eqb k th) as [th_k|]; [|contradiction]. destruct (dget Nat.eqb k us) as [u_k|]; [|contradiction].
  assert (S : exists r, dae_simulate integrate defaults (get_dae_system m) x_k t t_k (p ++ th_k ++ u_k) y_k ty user = Ok r).
  { unfold dae_simulate.
    destruct (Qeq_bool t t_k) eqn:E.
    - exfalso. apply Qeq_bool_iff in E. apply (HD 0 t_k t eq_refl eq_refl). symmetry. exact E.
    - cbn [d_tau get_dae_system].
      destruct (dae_depends_on (get_dae_system m) [m_tau m]) eqn:D.
      + exfalso. apply HT. unfold dae_depends_on, depends_on_vec in D. apply existsb_exists in D.
        destruct D as [e [I J]]. apply ExprProofs.depends_on_spec in J. destruct J as [s [J [<-|[]]]]. exists e. split; assumption.
      + destruct (integrator_options defaults _) as [name opts].
        rewrite plugin_cases. cbn in HN.
        destruct HN as [<-|[<-|[<-|[<-|[<-|[<-|[]]]]]]]; cbn; apply HI. }
  destruct S as [[xf zf] S]. rewrite S.
  destruct (IH (Datatypes.S k) t xf (Some zf)) as [s' E].
  - intros i a b A B. exact (HD (Datatypes.S i) a b A B).
  - intros i Hi. replace (Datatypes.S k + i) with (k + Datatypes.S i) by lia. apply HK. cbn. lia.
  - rewrite E. eexists. reflexivity.
Qed.
Lemma dget_same : forall (A : Type) (v : A) n i, i < n -> dget Nat.eqb i (map (fun el => (el, v)) (seq 0 n)) <> None.
Proof.
  intros A v n i H. rewrite same_everywhere. rewrite dget_enumerate_from. cbn [Nat.ltb Nat.leb]. rewrite Nat.sub_0_r.
  apply nth_error_Some. rewrite repeat_length. exact H.
Qed.
Lemma simulate_accepted : forall integrate defaults F m x_0 t_f t_0 u p theta y_0 ty user,
    (forall c, exists r, integrate c = Ok r) ->
    ~ dae_mentions (get_dae_system m) (m_tau m) ->
    In ty ["implicit"; "explicit"; "rk"; "collocation"; "cvodes"; "idas"]%string ->
    t_f <> [] ->
    (forall i a b, nth_error (t_0 :: t_f) i = Some a -> nth_error t_f i = Some b -> ~ (a == b)%Q) ->
    (forall th i, theta = Some th -> i < length t_f -> dget Nat.eqb i th <> None) ->
    (forall us, u = UDict us -> length us = length t_f /\ forall i, i < length t_f -> dget Nat.eqb i us <> None) ->
    (forall e s, In e (m_u_expr m) -> mentions e s -> In s (m_t m :: m_x m ++ m_y m ++ m_p m ++ m_theta m ++ m_u_par m)) ->
    exists r, simulate integrate defaults F m x_0 t_f t_0 u p theta y_0 ty user = Ok r.
Proof.
  intros integrate defaults F m x_0 t_f t_0 u p theta y_0 ty user HI HT HN H0 HD Hth Hu Hs. unfold simulate.
  replace (length (u_sim u (length t_f)) =? length t_f) with true.
  2:{ symmetry. apply Nat.eqb_eq. destruct u; cbn [u_sim]; rewrite ?map_length, ?seq_length; try reflexivity. apply (Hu _ eq_refl). }
  rewrite andb_false_r.
  destruct (existsb _ _) eqn:E.
  - exfalso. apply foreign_symbol in E. destruct E as [e [s [I [M N]]]]. exact (N (Hs e s I M)).
  - destruct (accepted_loop integrate defaults F m p (theta_sim theta (length t_f)) (u_sim u (length t_f)) ty user HI HT HN
                t_f 0 t_0 x_0 y_0 HD) as [s L].
    + intros i Hi. cbn [Nat.add]. split.
      * destruct theta as [th|]; cbn [theta_sim]; [exact (Hth th i eq_refl Hi)|apply dget_same, Hi].
      * destruct u as [|v|us]; cbn [u_sim]; [apply dget_same, Hi|apply dget_same, Hi|exact (proj2 (Hu us eq_refl) i Hi)].
    + rewrite L. destruct t_f; [contradiction|]. eexists. reflexivity.
Qed.

(** ** Equilibrium *)

Lemma const_symbols : forall e a q s, In s (symbols (substitute e [a] [EConst q])) -> In s (symbols e) /\ s <> a.
Proof.
  induction e as [c|b|o e1 IH1 e2 IH2|f e IH]; intros a q s I; cbn [substitute symbols subst_lookup] in *.
  - destruct I.
  - destruct (Nat.eqb_spec b a) as [->|N]; [destruct I|]. destruct I as [<-|[]]. split; [left; reflexivity|exact N].
  - apply in_app_or in I. destruct I as [I|I]; [destruct (IH1 _ _ _ I)|destruct (IH2 _ _ _ I)]; (split; [apply in_or_app; tauto|assumption]).
  - exact (IH _ _ _ I).
Qed.
Lemma equilibrium_called : forall root m additional guess t_0,
    (forall e s, In e (ode m ++ m_alg m ++ additional) -> mentions e s ->
       In s (m_t m :: m_tau m :: m_x m ++ m_y m ++ m_p m ++ m_theta m)) ->
    exists eqs,
      (forall F env, map (eval F env) eqs =
         map (eval F (assign env [m_t m; m_tau m] [t_0; 0%Q])) (ode m ++ m_alg m ++ additional)) /\
      find_equilibrium root m additional guess t_0 =
      match root (m_x m ++ m_y m ++ m_p m ++ m_theta m) eqs
                 (match guess with Some g => g | None => map (fun _ => 1%Q) (m_x m ++ m_y m ++ m_u m) end) with
      | Raise e => Raise e
      | Ok r => Ok (firstn (length (m_x m)) r, firstn (length (m_y m)) (skipn (length (m_x m)) r),
                    skipn (length (m_x m) + length (m_y m)) r)
      end.
Proof.
  intros root m additional guess t_0 H. exists (equilibrium_equations m additional t_0). split.
  - intros F env. unfold equilibrium_equations, subst_vec. rewrite !map_map. apply map_ext. intros e.
    rewrite !eval_substitute. apply eval_ext. intros s _. unfold env_subst. cbn [subst_lookup assign].
    destruct (Nat.eqb_spec s (m_t m)) as [->|N].
    + destruct (Nat.eq_dec (m_t m) (m_t m)); [reflexivity|contradiction].
    + destruct (Nat.eq_dec s (m_t m)); [contradiction|]. cbn [eval].
      destruct (Nat.eqb_spec s (m_tau m)) as [->|N2].
      * destruct (Nat.eq_dec (m_tau m) (m_tau m)); [reflexivity|contradiction].
      * destruct (Nat.eq_dec s (m_tau m)); [contradiction|reflexivity].
  - unfold find_equilibrium. fold (equilibrium_unknowns m).
    replace (existsb (fun s => negb (memb sym_eqb s (equilibrium_unknowns m))) (flat_map symbols (equilibrium_equations m additional t_0)))
      with false.
    + replace (match guess with Some g => g | None => repeat 1%Q (length (m_x m) + length (m_y m) + length (m_u m)) end)
        with (match guess with Some g => g | None => map (fun _ => 1%Q) (m_x m ++ m_y m ++ m_u m) end); [reflexivity|].
      destruct guess; [reflexivity|]. rewrite <- Nat.add_assoc, <- !app_length.
      induction (m_x m ++ m_y m ++ m_u m); cbn; congruence.
    + symmetry. apply Bool.not_true_iff_false. intros E. apply existsb_exists in E. destruct E as [s [I N]].
      apply in_flat_map in I. destruct I as [e' [I J]]. unfold equilibrium_equations, subst_vec in I.
      apply in_map_iff in I. destruct I as [e1 [<- I]]. apply in_map_iff in I. destruct I as [e [<- I]].
      apply const_symbols in J. destruct J as [J Ntau]. apply const_symbols in J. destruct J as [J Nt].
      apply negb_true_iff in N. apply Bool.not_true_iff_false in N. apply N, (memb_spec _ _ sym_eqb_eq).
      destruct (H e s I J) as [E|[E|K]]; [congruence|congruence|exact K].
Qed.
Lemma equilibrium_short_guess : forall x p root,
    (forall unknowns eqs g, length g <> length unknowns -> root unknowns eqs g = Raise CasadiError) ->
    find_equilibrium root (set_p [p] (set_ode [(x, Some (EBin OSub (EVar p) (EVar x)))] (set_x [x] (new_model 1 2)))) [] None 0%Q =
    Raise CasadiError.
Proof.
  intros x p root H. unfold find_equilibrium. destruct (existsb _ _); [reflexivity|].
  rewrite H; [reflexivity|]. discriminate.
Qed.

(** ** The controls recorded *)

Lemma values_assign : forall v q s env w r, length v = length q ->
    assign env (v ++ w) (q ++ r) s = match values_of v q s with Some b => b | None => assign env w r s end.
Proof.
  induction v as [|a v IH]; intros [|b q] s env w r L; try discriminate L; [reflexivity|].
  cbn [app assign values_of tl]. unfold sym_eqb. destruct (Nat.eqb_spec s a) as [->|N].
  - destruct (Nat.eq_dec a a); [reflexivity|contradiction].
  - destruct (Nat.eq_dec s a); [contradiction|]. apply IH. injection L as L. exact L.
Qed.
Lemma control_values : forall F m t x y p theta u_par,
    length x = length (m_x m) -> length y = length (m_y m) -> length p = length (m_p m) ->
    length theta = length (m_theta m) -> length u_par = length (m_u_par m) ->
    f_u F m t x y p theta u_par =
    map (eval F (assign (fun _ => 0%Q) (m_t m :: m_x m ++ m_y m ++ m_p m ++ m_theta m ++ m_u_par m)
                        (t :: x ++ y ++ p ++ theta ++ u_par))) (m_u_expr m).
Proof.
  intros F m t x y p theta u_par Lx Ly Lp Lt Lu. unfold f_u. apply map_ext. intros e. apply eval_ext. intros s _.
  change (m_t m :: m_x m ++ m_y m ++ m_p m ++ m_theta m ++ m_u_par m)
    with ([m_t m] ++ m_x m ++ m_y m ++ m_p m ++ m_theta m ++ m_u_par m).
  change (t :: x ++ y ++ p ++ theta ++ u_par) with ([t] ++ x ++ y ++ p ++ theta ++ u_par).
  rewrite <- (app_nil_r (m_u_par m)), <- (app_nil_r u_par).
  rewrite !values_assign by (try reflexivity; symmetry; assumption). rewrite !app_nil_r. reflexivity.
Qed.
Lemma simulated_controls : forall integrate defaults F m x_0 t_f t_0 u p theta y_0 ty user s i t_i x_i y_i th_i u_i,
    simulate integrate defaults F m x_0 t_f t_0 u p theta y_0 ty user = Ok s ->
    nth_error (s_x s) (S i) = Some (t_i, x_i) -> nth_error (s_y s) i = Some (t_i, y_i) ->
    dget Nat.eqb i (theta_sim theta (length t_f)) = Some th_i -> dget Nat.eqb i (u_sim u (length t_f)) = Some u_i ->
    length x_i = length (m_x m) -> length y_i = length (m_y m) -> length p = length (m_p m) ->
    length th_i = length (m_theta m) -> length u_i = length (m_u_par m) ->
    nth_error (s_u s) i = Some (t_i,
      map (eval F (assign (fun _ => 0%Q) (m_t m :: m_x m ++ m_y m ++ m_p m ++ m_theta m ++ m_u_par m)
                          (t_i :: x_i ++ y_i ++ p ++ th_i ++ u_i))) (m_u_expr m)).
Proof.
  intros integrate defaults F m x_0 t_f t_0 u p theta y_0 ty user s i t_i x_i y_i th_i u_i H Hx Hy Ht Hu Lx Ly Lp Lt Lu.
  destruct (nth_error t_f i) as [t|] eqn:E.
  - destruct (w_C22_elements_chained _ _ _ _ _ _ _ _ _ _ _ _ _ _ i t H E) as (t0 & x0 & y0 & th & v & xf & zf & _ & _ & A & B & _ & C & D & U).
    rewrite Ht in A. injection A as <-. rewrite Hu in B. injection B as <-. rewrite Hx in C. injection C as -> ->.
    rewrite Hy in D. injection D as ->. rewrite U. rewrite control_values by assumption. reflexivity.
  - exfalso. destruct (w_C22_times _ _ _ _ _ _ _ _ _ _ _ _ _ _ H) as (_ & _ & Y & _ & _).
    apply nth_error_None in E. rewrite <- Y, map_length in E. apply nth_error_None in E. congruence.
Qed.

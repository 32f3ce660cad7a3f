(** Proofs about one element of the transcription by collocation: what its functions
    evaluate to. *)
From Coq Require Import String Sorted SetoidList Permutation Lqa.
From Verif Require Import Base BaseProofs UtilModel UtilProofs ExprModel ExprProofs NlpModel NlpSpec NlpProofs SysModel
  SysSpec SysProofs SimModel OcpModel OcpSpec OcpMoreProofs LagModel LagSpec LagProofs DiscModel DiscSpec DiscProofs
  ColSpec ColPolyProofs ColEvalProofs ColProofs.
Local Open Scope list_scope.
Local Open Scope nat_scope.

Lemma nodup_drop : forall (A : Type) (a b c : list A), NoDup (a ++ b ++ c) -> NoDup (a ++ c).
Proof.
  intros A a b c. induction b as [|x b IH]; intros H; [exact H|]. apply IH. exact (NoDup_remove_1 _ _ _ H).
Qed.
Lemma nodup_front : forall (A : Type) (a b c : list A), NoDup (a ++ b ++ c) -> NoDup (a ++ b).
Proof. intros A a b c H. rewrite app_assoc in H. apply NoDup_app_l in H. exact H. Qed.

Lemma combine_nth_error : forall (A B : Type) (l : list A) (l' : list B) i a b,
    nth_error l i = Some a -> nth_error l' i = Some b -> nth_error (combine l l') i = Some (a, b).
Proof.
  intros A B l. induction l as [|x l IH]; intros [|y l'] [|i] a b Ha Hb; try discriminate.
  - injection Ha as ->. injection Hb as ->. reflexivity.
  - apply IH; assumption.
Qed.

Section Element.
  Variables (F : nat -> Q -> Q) (points : nat -> list Q) (dfun : nat -> expr -> expr) (k : method).
  Variables (env : sym -> Q) (s : par_syms) (r : traj sym) (q : trajectory).
  Hypothesis HF : respects F.
  Hypothesis T : transcribable k.
  Hypothesis Hpts : collocation_points (points (k_degree k)) (k_degree k).
  Hypothesis Sh : collocation_shape k r.
  Hypothesis D : describes k (points (k_degree k)) env s r q.
  Hypothesis Hp : length (ps_p s) = n_p k.
  Hypothesis Hth : rows (k_elements k) (n_theta k) (ps_theta s).
  Hypothesis Hx0 : length (ps_x0 s) = n_x k.
  Let m : model := k_model k.
  Let o : ocp := k_problem k.
  Let pts : list Q := points (k_degree k).
  Let K : nat := k_elements k.

  Lemma len_x : forall el tau, length (x_at k q el tau) = n_x k.
  Proof. intros. unfold x_at. rewrite map_length, seq_length. reflexivity. Qed.
  Lemma len_y : forall el tau, length (y_at k q el tau) = n_y k.
  Proof. intros. unfold y_at. rewrite map_length, seq_length. reflexivity. Qed.
  Lemma len_p : length (q_p q) = n_p k.
  Proof. apply (de_p _ _ _ _ _ _ D). Qed.
  Lemma theta_row : forall el, el < K -> exists g d, nth_error (ps_theta s) el = Some g /\ nth_error (r_theta r) el = Some d /\
      length g = n_theta k /\ length d = n_theta_opt k.
  Proof.
    intros el Hel. destruct Hth as [L1 R1]. destruct Sh as [_ [_ [_ [_ [_ [L2 R2]]]]]].
    rewrite Forall_forall in R1, R2.
    destruct (nth_error (ps_theta s) el) as [g|] eqn:Eg; [|apply nth_error_None in Eg; unfold K in Hel; lia].
    destruct (nth_error (r_theta r) el) as [d|] eqn:Ed; [|apply nth_error_None in Ed; unfold K in Hel; lia].
    exists g, d. repeat split; [apply R1, (nth_error_In _ _ Eg) | apply R2, (nth_error_In _ _ Ed)].
  Qed.
  Lemma len_theta : forall el, el < K -> length (q_theta q el) = n_theta k.
  Proof. intros el Hel. destruct (theta_row el Hel) as [g [d [Eg [Ed _]]]]. apply (de_theta _ _ _ _ _ _ D el g d Eg Ed). Qed.
  Lemma control_row : forall el, el < K -> exists l, nth_error (r_u r) el = Some l /\ rows (control_count k) (n_u k) l.
  Proof.
    intros el Hel. destruct Sh as [_ [_ [[L R] _]]]. rewrite Forall_forall in R.
    destruct (nth_error (r_u r) el) as [l|] eqn:E; [|apply nth_error_None in E; unfold K in Hel; lia].
    exists l. split; [reflexivity | apply R, (nth_error_In _ _ E)].
  Qed.
  Lemma len_u : forall el, el < K -> length (q_u q el) = n_u_par k.
  Proof.
    intros el Hel. destruct (control_row el Hel) as [l [E R]]. rewrite (de_u _ _ _ _ _ _ D el l E), map_length.
    rewrite (rows_concat_length _ _ _ _ R). symmetry. apply (tr_controls _ T).
  Qed.
  Lemma len_x0 : length (q_x0 q) = length (m_x_0 m).
  Proof. rewrite (de_x0 _ _ _ _ _ _ D), map_length, Hx0. symmetry. apply (tr_initial _ T). Qed.
  Lemma len_eta : length (q_eta q) = n_eta k.
  Proof. rewrite (de_eta _ _ _ _ _ _ D), map_length. apply Sh. Qed.

  (** ** The values at a point *)

  Section Point.
    Variables (el : nat) (tau : Q).
    Hypothesis Hel : el < K.
    Let t : Q := (step_size k * inject_Z (Z.of_nat el) + step_size k * tau)%Q.
    Notation rho := (at_point k q el tau).

    Lemma point_t : rho (m_t m) = t.
    Proof. unfold at_point, problem_symbols. cbn [assign]. fold m. destruct (Nat.eq_dec (m_t m) (m_t m)); [reflexivity | congruence]. Qed.
    Lemma point_tau : rho (m_tau m) = tau.
    Proof.
      unfold at_point, problem_symbols. cbn [assign]. fold m. pose proof (tr_symbols _ T) as N. unfold problem_symbols in N. fold m in N.
      apply NoDup_cons_iff in N. destruct N as [N _].
      destruct (Nat.eq_dec (m_tau m) (m_t m)) as [E|_]; [exfalso; apply N; left; exact E|].
      destruct (Nat.eq_dec (m_tau m) (m_tau m)); [reflexivity | congruence].
    Qed.
    Lemma point_block : forall pre blk post vpre vblk vpost,
        problem_symbols k = pre ++ blk ++ post ->
        t :: tau :: x_at k q el tau ++ y_at k q el tau ++ q_p q ++ q_theta q el ++ q_u q el ++ q_x0 q ++ q_eta q = vpre ++ vblk ++ vpost ->
        length pre = length vpre -> length blk = length vblk -> map rho blk = vblk.
    Proof.
      intros pre blk post vpre vblk vpost E1 E2 L1 L2. unfold at_point. fold t. rewrite E1, E2.
      apply assign_block; [|exact L1 | exact L2]. rewrite <- E1. apply (tr_symbols _ T).
    Qed.
    Ltac lens := cbn [length]; rewrite ?app_length, ?len_x, ?len_y, ?len_p, ?len_theta, ?len_u, ?len_x0, ?len_eta by exact Hel; reflexivity.
    Ltac split_at := unfold problem_symbols; fold m o; cbn [app]; rewrite <- ?app_assoc, ?app_nil_r; reflexivity.
    Lemma point_x : map rho (m_x m) = x_at k q el tau.
    Proof.
      apply (point_block (m_t m :: m_tau m :: []) (m_x m) (m_y m ++ m_p m ++ m_theta m ++ m_u_par m ++ m_x_0 m ++ o_eta o)
               (t :: tau :: []) (x_at k q el tau) (y_at k q el tau ++ q_p q ++ q_theta q el ++ q_u q el ++ q_x0 q ++ q_eta q));
        [split_at | split_at | lens | lens].
    Qed.
    Lemma point_y : map rho (m_y m) = y_at k q el tau.
    Proof.
      apply (point_block (m_t m :: m_tau m :: m_x m) (m_y m) (m_p m ++ m_theta m ++ m_u_par m ++ m_x_0 m ++ o_eta o)
               (t :: tau :: x_at k q el tau) (y_at k q el tau) (q_p q ++ q_theta q el ++ q_u q el ++ q_x0 q ++ q_eta q));
        [split_at | split_at | lens | lens].
    Qed.
    Lemma point_p : map rho (m_p m) = q_p q.
    Proof.
      apply (point_block (m_t m :: m_tau m :: m_x m ++ m_y m) (m_p m) (m_theta m ++ m_u_par m ++ m_x_0 m ++ o_eta o)
               (t :: tau :: x_at k q el tau ++ y_at k q el tau) (q_p q) (q_theta q el ++ q_u q el ++ q_x0 q ++ q_eta q));
        [split_at | split_at | lens | lens].
    Qed.
    Lemma point_theta : map rho (m_theta m) = q_theta q el.
    Proof.
      apply (point_block (m_t m :: m_tau m :: m_x m ++ m_y m ++ m_p m) (m_theta m) (m_u_par m ++ m_x_0 m ++ o_eta o)
               (t :: tau :: x_at k q el tau ++ y_at k q el tau ++ q_p q) (q_theta q el) (q_u q el ++ q_x0 q ++ q_eta q));
        [split_at | split_at | lens | lens].
    Qed.
    Lemma point_u : map rho (m_u_par m) = q_u q el.
    Proof.
      apply (point_block (m_t m :: m_tau m :: m_x m ++ m_y m ++ m_p m ++ m_theta m) (m_u_par m) (m_x_0 m ++ o_eta o)
               (t :: tau :: x_at k q el tau ++ y_at k q el tau ++ q_p q ++ q_theta q el) (q_u q el) (q_x0 q ++ q_eta q));
        [split_at | split_at | lens | lens].
    Qed.
    Lemma point_x0 : map rho (m_x_0 m) = q_x0 q.
    Proof.
      apply (point_block (m_t m :: m_tau m :: m_x m ++ m_y m ++ m_p m ++ m_theta m ++ m_u_par m) (m_x_0 m) (o_eta o)
               (t :: tau :: x_at k q el tau ++ y_at k q el tau ++ q_p q ++ q_theta q el ++ q_u q el) (q_x0 q) (q_eta q));
        [split_at | split_at | lens | lens].
    Qed.
    Lemma point_eta : map rho (o_eta o) = q_eta q.
    Proof.
      apply (point_block (m_t m :: m_tau m :: m_x m ++ m_y m ++ m_p m ++ m_theta m ++ m_u_par m ++ m_x_0 m) (o_eta o) []
               (t :: tau :: x_at k q el tau ++ y_at k q el tau ++ q_p q ++ q_theta q el ++ q_u q el ++ q_x0 q) (q_eta q) []);
        [split_at | split_at | lens | lens].
    Qed.
  End Point.

  (** ** Distinct inputs *)

  Lemma inputs_NoDup : NoDup (concat (all_sym_list m)).
  Proof.
    pose proof (tr_symbols _ T) as N. unfold problem_symbols in N. fold m o in N. cbn [concat app all_sym_list]. rewrite app_nil_r.
    apply (nodup_drop _ [m_t m] [m_tau m]) in N. cbn [app] in N.
    apply NoDup_app_l with (l' := m_x_0 m ++ o_eta o). cbn [app]. rewrite <- !app_assoc. exact N.
  Qed.
  Lemma spaces_NoDup : NoDup (m_x m ++ m_y m ++ m_p m ++ m_theta m ++ m_u_par m ++ m_x_0 m ++ o_eta o).
  Proof.
    pose proof (tr_symbols _ T) as N. unfold problem_symbols in N. fold m o in N.
    apply NoDup_cons_iff in N. destruct N as [_ N]. apply NoDup_cons_iff in N. apply N.
  Qed.
  Lemma p_NoDup : NoDup (m_p m).
  Proof. pose proof spaces_NoDup as N. apply NoDup_app_r in N. apply NoDup_app_r in N. apply NoDup_app_l in N. exact N. Qed.
  Lemma theta_NoDup : NoDup (m_theta m).
  Proof. pose proof spaces_NoDup as N. do 3 apply NoDup_app_r in N. apply NoDup_app_l in N. exact N. Qed.
  Lemma initial_NoDup : NoDup (concat [m_x m; m_x_0 m]).
  Proof.
    cbn [concat]. rewrite app_nil_r. pose proof spaces_NoDup as N.
    do 4 apply nodup_drop in N. apply nodup_front in N. exact N.
  Qed.
  Lemma final_NoDup : NoDup (concat [m_x m; o_eta o; m_p m]).
  Proof.
    cbn [concat]. rewrite app_nil_r. pose proof spaces_NoDup as N. apply nodup_drop in N.
    assert (N2 : NoDup (m_x m ++ m_p m ++ o_eta o)).
    { rewrite (app_assoc (m_x m)) in N. do 3 apply nodup_drop in N. rewrite <- app_assoc in N. exact N. }
    refine (Permutation_NoDup _ N2).
    apply Permutation_app_head, Permutation_app_comm.
  Qed.
  Lemma cost_NoDup : NoDup (concat [m_x m; m_p m]).
  Proof.
    cbn [concat]. rewrite app_nil_r. pose proof spaces_NoDup as N. apply nodup_drop in N. apply nodup_front in N. exact N.
  Qed.

  (** ** Elements *)

  Record fits (i : nat) (e : element) : Prop := mkFits
    { ft_a : (e_a e == step_size k * inject_Z (Z.of_nat i))%Q;
      ft_b : (e_b e == step_size k * inject_Z (Z.of_nat i) + step_size k)%Q;
      ft_dt : (e_dt e == step_size k)%Q;
      ft_x : nth_error (r_x r) i = Some (e_x e);
      ft_y : nth_error (r_y r) i = Some (e_y e);
      ft_u : nth_error (r_u r) i = Some (e_u e);
      ft_p : vals F env (e_p e) (q_p q);
      ft_theta : vals F env (e_theta e) (q_theta q i) }.

  Hypothesis HK : K <> 0.
  Lemma step_positive : (0 < step_size k)%Q.
  Proof.
    unfold step_size. apply Qlt_shift_div_l.
    - change 0%Q with (inject_Z 0). rewrite <- Zlt_Qlt. unfold K in HK. lia.
    - pose proof (tr_horizon _ T). lra.
  Qed.

  Section At.
    Variables (i : nat) (e : element).
    Hypothesis Hi : i < K.
    Hypothesis Hf : fits i e.

    (** A time of the element is that of a relative time. *)
    Definition time_of (t tau : Q) : Prop := (t == step_size k * inject_Z (Z.of_nat i) + step_size k * tau)%Q.
    Lemma relative : forall t tau, time_of t tau -> ((t - e_a e) / (e_b e - e_a e) == tau)%Q.
    Proof.
      intros t tau H. unfold time_of in H. rewrite H, (ft_a _ _ Hf), (ft_b _ _ Hf). pose proof step_positive. field. lra.
    Qed.

    Lemma point_at_ok : forall t tau pt, time_of t tau -> point_at points k e t = Ok pt ->
        pt_t pt = t /\ vals F env (pt_x pt) (x_at k q i tau) /\ vals F env (pt_y pt) (y_at k q i tau) /\
        vals F env (pt_p pt) (q_p q) /\ vals F env (pt_theta pt) (q_theta q i) /\ vals F env (pt_u pt) (q_u q i).
    Proof.
      intros t tau pt Ht H. unfold point_at in H.
      destruct (polynomial_function points k (n_x k) true (e_a e) (e_b e)) as [fx|] eqn:Efx; [|discriminate].
      destruct (polynomial_function points k (n_y k) false (e_a e) (e_b e)) as [fy|] eqn:Efy; [|discriminate].
      destruct (call fx _) as [x|] eqn:Ex; [|discriminate]. destruct (call fy _) as [y|] eqn:Ey; [|discriminate].
      injection H as <-. cbn [pt_t pt_x pt_y pt_p pt_theta pt_u].
      assert (Htau := relative t tau Ht).
      destruct Sh as [[_ Gx] [[_ Gy] _]]. rewrite Forall_forall in Gx, Gy.
      assert (Rx : rows (length (interpolation_points points (k_degree k) true)) (n_x k) (e_x e)).
      { rewrite interpolation_length by first [exact Hpts | apply (tr_degree _ T)]. apply Gx, (nth_error_In _ i), (ft_x _ _ Hf). }
      assert (Ry : rows (length (interpolation_points points (k_degree k) false)) (n_y k) (e_y e)).
      { rewrite interpolation_length by first [exact Hpts | apply (tr_degree _ T)]. apply Gy, (nth_error_In _ i), (ft_y _ _ Hf). }
      split; [reflexivity|]. split; [|split; [|split; [|split]]].
      - refine (polynomial_vals F points (fun _ a => a) k HF (tr_degree _ T) Hpts env (n_x k) true (e_x e) (q_x q i) Rx _ _ _ fx t tau x Efx Ex Htau).
        intros j Hj. destruct (de_x _ _ _ _ _ _ D i j Hi Hj) as [A B]. split; [exact A|].
        intros a ta v Ha Hv. apply (B a ta v Ha). unfold entry. rewrite (ft_x _ _ Hf). exact Hv.
      - refine (polynomial_vals F points (fun _ a => a) k HF (tr_degree _ T) Hpts env (n_y k) false (e_y e) (q_y q i) Ry _ _ _ fy t tau y Efy Ey Htau).
        intros j Hj. destruct (de_y _ _ _ _ _ _ D i j Hi Hj) as [A B]. split; [exact A|].
        intros a ta v Ha Hv. apply (B a ta v Ha). unfold entry. rewrite (ft_y _ _ Hf). exact Hv.
      - apply (ft_p _ _ Hf).
      - apply (ft_theta _ _ Hf).
      - pose proof (de_u _ _ _ _ _ _ D i _ (ft_u _ _ Hf)) as E. destruct (k_direct k) eqn:Ed.
        + rewrite E. apply vals_vars.
        + pose proof (len_u i Hi) as L. unfold n_u_par in L. rewrite (tr_indirect _ T Ed) in L.
          destruct (q_u q i); [constructor | discriminate].
    Qed.

    Lemma element_call : forall es f t tau pt out, time_of t tau -> point_at points k e t = Ok pt ->
        element_function k (e_a e) (e_b e) es = Ok f -> call_at f pt = Ok out ->
        vals F env out (map (eval F (at_point k q i tau)) es).
    Proof.
      intros es f t tau pt out Ht Hpt Hfun Hc.
      destruct (point_at_ok t tau pt Ht Hpt) as [Et [Vx [Vy [Vp [Vth Vu]]]]].
      unfold element_function in Hfun. unfold call_at in Hc.
      assert (V : vals F env out (map (eval F (at_point k q i tau))
                 (map (fun e0 => convert_expr_from_tau_to_time e0 (m_t m) (m_tau m) (e_a e) (e_b e)) es))).
      { refine (call_blocks F env _ _ _ _ _ _ HF inputs_NoDup Hfun Hc _). unfold all_sym_list. fold m.
        apply Forall2_cons; [rewrite Et; cbn [map]; rewrite point_t; constructor; [exact Ht | constructor]|].
        apply Forall2_cons; [rewrite (point_x i tau); exact Vx|].
        apply Forall2_cons; [rewrite (point_y i tau); exact Vy|].
        apply Forall2_cons; [rewrite (point_p i tau); exact Vp|].
        apply Forall2_cons; [rewrite (point_theta i tau Hi); exact Vth|].
        apply Forall2_cons; [rewrite (point_u i tau Hi); exact Vu | constructor]. }
      eapply vals_Qeq; [exact V|]. rewrite map_map. clear V Hfun. induction es as [|a es IH]; constructor; [|exact IH].
      rewrite tau_to_time_value. apply eval_ext_Qeq; [exact HF|]. intros x _. unfold upd.
      destruct (Nat.eqb_spec x (m_tau m)) as [->|]; [|reflexivity].
      rewrite (point_tau i tau), point_t. apply relative. reflexivity.
    Qed.

    Lemma times_related : forall taus, Forall2 time_of (times_of k e taus) taus.
    Proof.
      intros taus. induction taus as [|a l IH]; constructor; [|exact IH]. unfold time_of.
      rewrite (ft_a _ _ Hf), (ft_dt _ _ Hf). reflexivity.
    Qed.
    Lemma times_sorted : forall taus, Sorted Qlt taus -> Sorted Qlt (times_of k e taus).
    Proof.
      intros taus H. induction H as [|a l H IH Hd]; constructor; [exact IH|].
      destruct Hd as [|b l Hab]; constructor. pose proof step_positive. rewrite (ft_dt _ _ Hf).
      assert ((step_size k * a < step_size k * b)%Q) by (apply Qmult_lt_l; assumption). lra.
    Qed.

    Lemma filtered_times : forall grid ts taus, Forall2 time_of ts taus -> Sorted Qlt ts ->
        (forall x, InA Qeq x ts -> InA Qeq x grid) ->
        Forall2 time_of (filter (fun t => in_times t ts) (sort_times grid)) taus.
    Proof.
      intros grid ts taus H Hs Hin. refine (Forall2_trans_l _ _ _ Qeq time_of time_of _ _ _ _ (own_times ts grid Hs Hin) H).
      intros a b c E Hb. unfold time_of in *. rewrite E. exact Hb.
    Qed.

    Lemma evaluate_ok : forall es f grid ts taus out, Forall2 time_of ts taus -> Sorted Qlt ts ->
        (forall x, InA Qeq x ts -> InA Qeq x grid) ->
        element_function k (e_a e) (e_b e) es = Ok f ->
        evaluate points k e (sort_times grid) (f, ts) = Ok out ->
        Forall2 (fun o tau => vals F env o (map (eval F (at_point k q i tau)) es)) out taus.
    Proof.
      intros es f grid ts taus out H Hs Hin Hfun Hev. unfold evaluate in Hev. cbn [fst snd] in Hev.
      pose proof (Forall2_flip _ _ _ _ _ (res_map_ok _ _ _ _ _ Hev)) as H1.
      refine (Forall2_trans_l _ _ _ _ _ _ _ _ _ _ H1 (filtered_times grid ts taus H Hs Hin)).
      intros o' t tau Hr Ht. cbn beta in Hr. destruct (point_at points k e t) as [pt|] eqn:Ept; [|discriminate].
      apply (element_call es f t tau pt o' Ht Ept Hfun Hr).
    Qed.
    Lemma states_ok : forall grid ts taus out, Forall2 time_of ts taus -> Sorted Qlt ts ->
        (forall x, InA Qeq x ts -> InA Qeq x grid) ->
        states_at points k e (sort_times grid) ts = Ok out ->
        Forall2 (fun o tau => vals F env o (x_at k q i tau)) out taus.
    Proof.
      intros grid ts taus out H Hs Hin Hev. unfold states_at in Hev.
      pose proof (Forall2_flip _ _ _ _ _ (res_map_ok _ _ _ _ _ Hev)) as H1.
      refine (Forall2_trans_l _ _ _ _ _ _ _ _ _ _ H1 (filtered_times grid ts taus H Hs Hin)).
      intros o' t tau Hr Ht. cbn beta in Hr. destruct (point_at points k e t) as [pt|] eqn:Ept; [|discriminate].
      injection Hr as <-. apply (point_at_ok t tau pt Ht Ept).
    Qed.

    Lemma constraint_times_ok : forall w ts, constraint_times w (e_a e) (e_b e) (times_of k e (algebraic_taus points k)) = Ok ts ->
        Forall2 time_of ts (imposed pts w) /\ Sorted Qlt ts.
    Proof.
      intros w ts H. unfold constraint_times in H. unfold imposed.
      destruct (String.eqb w "start"); [injection H as <-|
        destruct (String.eqb w "end"); [injection H as <-| destruct (String.eqb w "default"); [injection H as <- | discriminate]]].
      - split; [constructor; [|constructor] | constructor; constructor]. unfold time_of. rewrite (ft_a _ _ Hf). ring.
      - split; [constructor; [|constructor] | constructor; constructor]. unfold time_of. rewrite (ft_b _ _ Hf). ring.
      - split; [apply times_related | apply times_sorted]. unfold algebraic_taus. destruct Hpts as [_ [S _]]. inversion S; assumption.
    Qed.

    (** The values of a list of constraints. *)
    Definition constraint_values (gw : expr * string) (outs : list (list expr)) : Prop :=
      Forall2 (fun o tau => vals F env o [eval F (at_point k q i tau) (fst gw)]) outs (imposed pts (snd gw)).

    Lemma entries_ok : forall es ws fts outs grid,
        constraint_entries points k e es ws = Ok fts ->
        (forall x, InA Qeq x (concat (map snd fts)) -> InA Qeq x grid) ->
        res_map (evaluate points k e (sort_times grid)) fts = Ok outs ->
        Forall2 constraint_values (combine es ws) outs /\ length es = length outs.
    Proof.
      intros es ws fts outs grid Hent Hin Hev. unfold constraint_entries in Hent.
      pose proof (res_map_ok _ _ _ _ _ Hent) as H1. pose proof (res_map_ok _ _ _ _ _ Hev) as H2.
      assert (L1 : length (seq 0 (length es)) = length fts) by (apply (Forall2_len _ _ _ _ _ H1)). rewrite seq_length in L1.
      assert (L2 : length fts = length outs) by (apply (Forall2_len _ _ _ _ _ H2)).
      assert (P : forall j, j < length es -> exists g w f ts out, nth_error es j = Some g /\ nth_error ws j = Some w /\
                 nth_error fts j = Some (f, ts) /\ nth_error outs j = Some out /\
                 constraint_times w (e_a e) (e_b e) (times_of k e (algebraic_taus points k)) = Ok ts /\
                 element_function k (e_a e) (e_b e) [g] = Ok f /\ evaluate points k e (sort_times grid) (f, ts) = Ok out).
      { intros j Hj. assert (Es : nth_error (seq 0 (length es)) j = Some j).
        { rewrite (nth_error_nth' _ 0) by (rewrite seq_length; exact Hj). rewrite seq_nth by exact Hj. reflexivity. }
        destruct (Forall2_nth _ _ _ _ _ _ _ H1 Es) as [[f ts] [Ef Hr]].
        destruct (nth_error es j) as [g|] eqn:Eg; [|discriminate]. destruct (nth_error ws j) as [w|] eqn:Ew; [|discriminate].
        destruct (constraint_times _ _ _ _) as [ts'|] eqn:Et; [|discriminate].
        destruct (element_function _ _ _ _) as [f'|] eqn:Ee; [|discriminate]. injection Hr as <- <-.
        destruct (Forall2_nth _ _ _ _ _ _ _ H2 Ef) as [out [Eo Ho]].
        exists g, w, f', ts', out. repeat split; assumption. }
      assert (Lw : length es <= length ws).
      { destruct (length es) as [|n] eqn:E; [lia|]. destruct (P n) as [g [w [f [ts [out [_ [Ew _]]]]]]]; [lia|].
        assert (n < length ws) by (apply nth_error_Some; congruence). lia. }
      split; [|lia].
      apply Forall2_nth_intro; [rewrite combine_length; lia|].
      intros j [g w] out Hgw Ho. assert (Hj : j < length es).
      { assert (j < length (combine es ws)) by (apply nth_error_Some; congruence). rewrite combine_length in H. lia. }
      destruct (P j Hj) as [g' [w' [f [ts [out' [Eg [Ew [Ef [Eo [Et [Ee Ev]]]]]]]]]]].
      assert (Egw : nth_error (combine es ws) j = Some (g', w')) by (apply combine_nth_error; assumption).
      rewrite Hgw in Egw. injection Egw as <- <-. rewrite Ho in Eo. injection Eo as <-.
      destruct (constraint_times_ok _ _ Et) as [R S]. unfold constraint_values. cbn [fst snd].
      apply (evaluate_ok [g] f grid ts _ out R S); [|exact Ee | exact Ev].
      intros x Hx. apply Hin. rewrite InA_alt in Hx. destruct Hx as [y [Hxy Hy]]. apply InA_alt. exists y. split; [exact Hxy|].
      apply in_concat. exists ts. split; [|exact Hy]. apply in_map_iff. exists (f, ts). split; [reflexivity | apply (nth_error_In _ _ Ef)].
    Qed.

    Record outcome (z : results) : Prop := mkOutcome
      { oc_x : Forall2 (fun o tau => vals F env o (x_at k q i tau)) (z_x z) (0%Q :: pts);
        oc_ode : Forall2 (fun o tau => vals F env o (map (eval F (at_point k q i tau)) (ode m))) (z_ode z) (0%Q :: pts);
        oc_alg : Forall2 (fun o tau => vals F env o (map (eval F (at_point k q i tau)) (d_alg (get_dae_system m)))) (z_alg z) pts;
        oc_ineq : Forall2 constraint_values (combine (o_g_ineq o) (o_when_ineq o)) (z_ineq z) /\ length (o_g_ineq o) = length (z_ineq z);
        oc_eq : Forall2 constraint_values (combine (o_g_eq o) (o_when_eq o)) (z_eq z) /\ length (o_g_eq o) = length (z_eq z);
        oc_s : Forall2 (fun o' tau => vals F env o' (map (eval F (at_point k q i tau)) (o_S o))) (z_s z) [1%Q] }.

    Lemma element_results_ok : forall z, element_results points k e = Ok z -> outcome z.
    Proof.
      intros z H. unfold element_results in H. fold m o in H.
      destruct (element_function k (e_a e) (e_b e) (d_ode (get_dae_system m))) as [f_ode|] eqn:E1; [|discriminate].
      destruct (element_function k (e_a e) (e_b e) (d_alg (get_dae_system m))) as [f_alg|] eqn:E2; [|discriminate].
      destruct (constraint_entries points k e (o_g_ineq o) (o_when_ineq o)) as [ineq|] eqn:E3; [|discriminate].
      destruct (constraint_entries points k e (o_g_eq o) (o_when_eq o)) as [eqs|] eqn:E4; [|discriminate].
      destruct (element_function k (e_a e) (e_b e) (o_S o)) as [f_s|] eqn:E5; [|discriminate].
      destruct (control_function k (e_a e) (e_b e)) as [f_u|] eqn:E6; [|discriminate].
      set (g := times_of k e (state_taus points k) ++ times_of k e (algebraic_taus points k) ++
                concat (map snd (ineq ++ eqs)) ++ [e_b e]) in H.
      destruct (res_map _ (sort_times g)) as [u|] eqn:E7 in H; [|discriminate].
      destruct (states_at points k e (sort_times g) _) as [x|] eqn:E8; [|discriminate].
      destruct (evaluate points k e (sort_times g) (f_ode, _)) as [od|] eqn:E9; [|discriminate].
      destruct (evaluate points k e (sort_times g) (f_alg, _)) as [al|] eqn:E10; [|discriminate].
      destruct (res_map _ ineq) as [gi|] eqn:E11; [|discriminate].
      destruct (res_map _ eqs) as [ge|] eqn:E12; [|discriminate].
      destruct (evaluate points k e (sort_times g) (f_s, _)) as [sv|] eqn:E13; [|discriminate].
      injection H as <-. destruct Hpts as [_ [S0 _]].
      assert (S1 : Sorted Qlt pts) by (inversion S0; assumption).
      assert (I1 : forall x, InA Qeq x (times_of k e (state_taus points k)) -> InA Qeq x g).
      { intros y Hy. unfold g. apply InA_app_iff. left. exact Hy. }
      assert (I2 : forall x, InA Qeq x (times_of k e (algebraic_taus points k)) -> InA Qeq x g).
      { intros y Hy. unfold g. apply InA_app_iff. right. apply InA_app_iff. left. exact Hy. }
      assert (I3 : forall x, InA Qeq x (concat (map snd (ineq ++ eqs))) -> InA Qeq x g).
      { intros y Hy. unfold g. apply InA_app_iff. right. apply InA_app_iff. right. apply InA_app_iff. left. exact Hy. }
      assert (I4 : forall x, InA Qeq x [e_b e] -> InA Qeq x g).
      { intros y Hy. unfold g. apply InA_app_iff. right. apply InA_app_iff. right. apply InA_app_iff. right. exact Hy. }
      rewrite map_app, concat_app in I3.
      constructor; cbn [z_x z_ode z_alg z_ineq z_eq z_s].
      - refine (states_ok g _ _ x (times_related _) (times_sorted _ S0) I1 E8).
      - refine (evaluate_ok _ f_ode g _ _ od (times_related _) (times_sorted _ S0) I1 E1 E9).
      - refine (evaluate_ok _ f_alg g _ _ al (times_related _) (times_sorted _ S1) I2 E2 E10).
      - refine (entries_ok _ _ ineq gi g E3 _ E11). intros y Hy. apply I3, InA_app_iff. left. exact Hy.
      - refine (entries_ok _ _ eqs ge g E4 _ E12). intros y Hy. apply I3, InA_app_iff. right. exact Hy.
      - refine (evaluate_ok _ f_s g [e_b e] [1%Q] sv _ _ I4 E5 E13).
        + constructor; [|constructor]. unfold time_of. rewrite (ft_b _ _ Hf). ring.
        + constructor; constructor.
    Qed.
  End At.
End Element.

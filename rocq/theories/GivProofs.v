(** Proofs about the values of a trajectory at given times. *)
From Coq Require Import String Lqa Sorting.Sorted SetoidList.
From Verif Require Import Base BaseProofs UtilModel ExprModel ExprProofs NlpModel SysModel SysSpec SimModel OcpModel LagModel
  DiscModel DiscSpec DiscProofs ColSpec ColPolyProofs ColEvalProofs ColElementProofs ColAssemblyProofs ColMainProofs ShoModel ShoSpec
  ShoShotProofs ShoProofs GivModel GivSpec.
Local Open Scope list_scope.
Local Open Scope nat_scope.

Lemma among_some : forall l t, among (Some l) t = in_times t l.
Proof. reflexivity. Qed.
Lemma among_asked : forall w t, among w t = in_times t (asked w).
Proof. intros [l|] t; reflexivity. Qed.
Lemma selected_cons : forall (A : Type) w t ts (v : A) vs,
    selected w (t :: ts) (v :: vs) = (if among w t then [v] else []) ++ selected w ts vs.
Proof. intros A w t ts v vs. unfold selected. cbn [combine filter fst]. destruct (among w t); reflexivity. Qed.
Lemma selected_nil : forall (A : Type) w, selected w [] ([] : list A) = [].
Proof. reflexivity. Qed.
Lemma Forall2_refl_Qeq : forall l, Forall2 Qeq l l.
Proof. induction l; constructor; [reflexivity | assumption]. Qed.
Lemma vals_values : forall F env es vs, vals F env es vs -> Forall2 Qeq (map (eval F env) es) vs.
Proof. intros F env es vs H. induction H; constructor; assumption. Qed.
Lemma Sorted_filter_Qlt : forall f l, StronglySorted Qlt l -> StronglySorted Qlt (filter f l).
Proof.
  intros f l H. induction H as [|a l H IH Ha]; [constructor|]. cbn [filter]. destruct (f a); [|exact IH]. constructor; [exact IH|].
  rewrite Forall_forall in *. intros b Hb. apply filter_In in Hb. apply Ha, Hb.
Qed.
Lemma sorted_distinct_filter : forall f l, Sorted Qlt l -> Sorted Qlt (filter f l).
Proof. intros f l H. apply StronglySorted_Sorted, Sorted_filter_Qlt, sorted_strongly, H. Qed.
Lemma InA_filter_Qeq : forall t_0 l t, InA Qeq t (filter (fun t => negb (Qeq_bool t t_0)) l) <-> ~ (t == t_0)%Q /\ InA Qeq t l.
Proof.
  intros t_0 l t. rewrite !InA_alt. split.
  - intros [y [E H]]. apply filter_In in H. destruct H as [H N]. split; [|exists y; split; assumption].
    intros X. apply negb_true_iff, not_true_iff_false in N. apply N, Qeq_bool_iff. rewrite <- E. exact X.
  - intros [N [y [E H]]]. exists y. split; [exact E|]. apply filter_In. split; [exact H|]. apply negb_true_iff, not_true_iff_false.
    intros X. apply Qeq_bool_iff in X. apply N. rewrite E. exact X.
Qed.
Lemma InA_app_iff : forall t l l', InA Qeq t (l ++ l') <-> InA Qeq t l \/ InA Qeq t l'.
Proof.
  intros t l l'. rewrite !InA_alt. split.
  - intros [y [E H]]. apply in_app_iff in H. destruct H as [H|H]; [left | right]; exists y; split; assumption.
  - intros [[y [E H]] | [y [E H]]]; exists y; (split; [exact E|]); apply in_app_iff; [left | right]; exact H.
Qed.
Lemma InA_asked : forall t ls, InA Qeq t (concat (map asked ls)) <-> exists l, In l ls /\ among l t = true.
Proof.
  intros t ls. induction ls as [|l ls IH]; cbn [map concat].
  - split; [intros H; inversion H | intros [l [[] _]]].
  - rewrite InA_app_iff, IH. split.
    + intros [H | [l' [H1 H2]]]; [exists l; split; [left; reflexivity | rewrite among_asked; apply in_times_In, H] | exists l'; split; [right; exact H1 | exact H2]].
    + intros [l' [[<- | H1] H2]]; [left; rewrite among_asked in H2; apply in_times_In, H2 | right; exists l'; split; assumption].
Qed.

Section Given.
  Variables (buildable : optval -> string -> dict string (list expr) -> options -> bool)
    (label : nat -> nat -> string) (defaults : options) (ty : string) (k : method)
    (F : nat -> Q -> Q) (integrate : icall -> res (list Q * list Q)) (env : sym -> Q) (h : shooting).
  Hypothesis HF : respects F.
  Hypothesis T : shootable k.
  Hypothesis W : well_sized k h.
  Let m : model := k_model k.
  Let o : ocp := k_problem k.
  Let K : nat := k_elements k.

  (** ** The values at a point *)

  Section Point.
    Variables (el : nat) (t tau : Q) (x y : list Q).
    Hypothesis Lx : length x = length (m_x m).
    Hypothesis Ly : length y = length (m_y m).
    Notation rho := (point_of k h el t tau x y).

    Lemma gv_block : forall pre blk post vpre vblk vpost,
        problem_symbols k = pre ++ blk ++ post ->
        t :: tau :: x ++ y ++ h_p h ++ h_theta h el ++ h_u h el ++ h_x0 h ++ h_eta h = vpre ++ vblk ++ vpost ->
        length pre = length vpre -> length blk = length vblk -> map rho blk = vblk.
    Proof.
      intros pre blk post vpre vblk vpost E1 E2 L1 L2. unfold point_of. rewrite E1, E2.
      apply assign_block; [|exact L1 | exact L2]. rewrite <- E1. apply (so_symbols _ T).
    Qed.
    Ltac lens := cbn [length]; rewrite ?app_length, ?Lx, ?Ly, ?(ws_p _ _ W), ?(ws_theta _ _ W), ?(ws_u _ _ W); reflexivity.
    Ltac split_at := unfold problem_symbols; fold m o; cbn [app]; rewrite <- ?app_assoc, ?app_nil_r; reflexivity.
    Lemma gv_x : map rho (m_x m) = x.
    Proof.
      apply (gv_block (m_t m :: m_tau m :: []) (m_x m) (m_y m ++ m_p m ++ m_theta m ++ m_u_par m ++ m_x_0 m ++ o_eta o)
               (t :: tau :: []) x (y ++ h_p h ++ h_theta h el ++ h_u h el ++ h_x0 h ++ h_eta h));
        [split_at | split_at | lens | lens].
    Qed.
    Lemma gv_y : map rho (m_y m) = y.
    Proof.
      apply (gv_block (m_t m :: m_tau m :: m_x m) (m_y m) (m_p m ++ m_theta m ++ m_u_par m ++ m_x_0 m ++ o_eta o)
               (t :: tau :: x) y (h_p h ++ h_theta h el ++ h_u h el ++ h_x0 h ++ h_eta h));
        [split_at | split_at | lens | lens].
    Qed.
    Lemma gv_p : map rho (m_p m) = h_p h.
    Proof.
      apply (gv_block (m_t m :: m_tau m :: m_x m ++ m_y m) (m_p m) (m_theta m ++ m_u_par m ++ m_x_0 m ++ o_eta o)
               (t :: tau :: x ++ y) (h_p h) (h_theta h el ++ h_u h el ++ h_x0 h ++ h_eta h));
        [split_at | split_at | lens | lens].
    Qed.
    Lemma gv_theta : map rho (m_theta m) = h_theta h el.
    Proof.
      apply (gv_block (m_t m :: m_tau m :: m_x m ++ m_y m ++ m_p m) (m_theta m) (m_u_par m ++ m_x_0 m ++ o_eta o)
               (t :: tau :: x ++ y ++ h_p h) (h_theta h el) (h_u h el ++ h_x0 h ++ h_eta h));
        [split_at | split_at | lens | lens].
    Qed.
    Lemma gv_u : map rho (m_u_par m) = h_u h el.
    Proof.
      apply (gv_block (m_t m :: m_tau m :: m_x m ++ m_y m ++ m_p m ++ m_theta m) (m_u_par m) (m_x_0 m ++ o_eta o)
               (t :: tau :: x ++ y ++ h_p h ++ h_theta h el) (h_u h el) (h_x0 h ++ h_eta h));
        [split_at | split_at | lens | lens].
    Qed.
    Lemma gv_t : rho (m_t m) = t.
    Proof. unfold point_of, problem_symbols. cbn [assign]. fold m. destruct (Nat.eq_dec (m_t m) (m_t m)); [reflexivity | congruence]. Qed.
    Lemma gv_tau : rho (m_tau m) = tau.
    Proof.
      unfold point_of, problem_symbols. cbn [assign]. fold m. pose proof (so_symbols _ T) as N. unfold problem_symbols in N. fold m in N.
      apply NoDup_cons_iff in N. destruct N as [N _].
      destruct (Nat.eq_dec (m_tau m) (m_t m)) as [E|_]; [exfalso; apply N; left; exact E|].
      destruct (Nat.eq_dec (m_tau m) (m_tau m)); [reflexivity | congruence].
    Qed.
  End Point.

  (** Expressions with the relative time replaced have the values of [during]. *)
  Lemma gv_relative : forall el a b t x y es,
      Forall2 Qeq (map (eval F (point_of k h el t (relative a b t) x y))
                     (map (fun e => convert_expr_from_tau_to_time e (m_t m) (m_tau m) a b) es))
        (during F k h el a b es (t, (x, y))).
  Proof.
    intros el a b t x y es. unfold during. cbn [fst snd]. rewrite map_map. induction es as [|e es IH]; constructor; [|exact IH].
    rewrite tau_to_time_value. apply eval_ext_Qeq; [exact HF|]. intros v _. unfold upd.
    destruct (Nat.eqb_spec v (m_tau m)) as [->|]; [|reflexivity]. rewrite gv_tau, gv_t. reflexivity.
  Qed.

  (** ** The times of an element *)

  Section Element.
    Variables (el : nat) (a b : Q) (f_u : func) (u_el : list (list sym)) (p : list expr) (thetas : list (list expr)) (theta : list expr).
    Hypothesis Hth : nth_error thetas el = Some theta.
    Hypothesis Hfu : control_function k a b = Ok f_u.
    Hypothesis Vp : h_p h = map (eval F env) p.
    Hypothesis Vth : h_theta h el = map (eval F env) theta.
    Hypothesis Vu : h_u h el = map env (concat u_el).
    Let st : stage := mkStage el (element_system k el) u_el f_u.

    Lemma gv_parameters : map (eval F env) (if k_direct k then p ++ theta ++ map EVar (vectorize u_el) else p ++ theta) =
        h_p h ++ h_theta h el ++ h_u h el.
    Proof.
      destruct (k_direct k) eqn:Ed.
      - rewrite !map_app, eval_vars, Vp, Vth, Vu. reflexivity.
      - pose proof (ws_u _ _ W el) as L. rewrite (so_indirect _ T Ed) in L. destruct (h_u h el); [|discriminate].
        rewrite map_app, app_nil_r, Vp, Vth. reflexivity.
    Qed.
    Lemma gv_shot_sizes : forall i, length (seq i (length (d_x (element_system k el)))) = length (m_x m) /\
        length (seq i (end_size (element_system k el))) = length (m_y m).
    Proof.
      intros i. rewrite !seq_length. unfold end_size, dae_is_dae, dae_is_ode, element_system. cbn [d_alg d_y d_x]. fold m. rewrite !map_length.
      split; [reflexivity|]. pose proof (so_algebraic _ T) as A. fold m in A. destruct (m_y m) as [|y l]; [reflexivity|].
      rewrite A. reflexivity.
    Qed.
    Lemma gv_function : forall a' b' es f t xf zf v, length xf = length (m_x m) -> length zf = length (m_y m) ->
        element_function k a' b' es = Ok f ->
        call_at f (mkPoint t (map EVar xf) (map EVar zf) p theta (map EVar (vectorize u_el))) = Ok v ->
        Forall2 Qeq (map (eval F env) v) (during F k h el a' b' es (t, (map env xf, map env zf))).
    Proof.
      intros a' b' es f t xf zf v Lx Lz Hf Hc.
      unfold element_function in Hf. unfold call_at in Hc. cbn [pt_t pt_x pt_y pt_p pt_theta pt_u] in Hc.
      set (rho := point_of k h el t (relative a' b' t) (map env xf) (map env zf)).
      assert (L1 : length (map env xf) = length (m_x m)) by (rewrite map_length; exact Lx).
      assert (L2 : length (map env zf) = length (m_y m)) by (rewrite map_length; exact Lz).
      assert (V : vals F env v (map (eval F rho)
                 (map (fun e0 => convert_expr_from_tau_to_time e0 (m_t m) (m_tau m) a' b') es))).
      { refine (call_blocks F env _ _ _ _ _ _ HF (sho_inputs_NoDup _ T) Hf Hc _). unfold all_sym_list. fold m.
        apply Forall2_cons; [cbn [map]; unfold rho; rewrite gv_t; constructor; [reflexivity | constructor]|].
        apply Forall2_cons; [unfold rho; rewrite (gv_x _ _ _ _ _ L1); apply vals_vars|].
        apply Forall2_cons; [unfold rho; rewrite (gv_y _ _ _ _ _ L1 L2); apply vals_vars|].
        apply Forall2_cons; [unfold rho; rewrite (gv_p _ _ _ _ _ L1 L2); apply (vals_of F env p _ Vp)|].
        apply Forall2_cons; [unfold rho; rewrite (gv_theta _ _ _ _ _ L1 L2); apply (vals_of F env theta _ Vth)|].
        apply Forall2_cons; [unfold rho; rewrite (gv_u _ _ _ _ _ L1 L2), Vu; apply vals_vars | constructor]. }
      apply vals_values. eapply vals_Qeq; [exact V|]. apply gv_relative.
    Qed.
    Lemma gv_control_direct : forall t x y v, length x = length (m_x m) -> length y = length (m_y m) -> k_direct k = true ->
        call f_u [[EConst t]; map EVar (vectorize u_el)] = Ok v ->
        Forall2 Qeq (map (eval F env) v) (during F k h el a b (m_u_expr m) (t, (x, y))).
    Proof.
      intros t x y v Lx Ly Ed Hc. unfold control_function in Hfu. rewrite Ed in Hfu. fold m in Hfu.
      set (rho := point_of k h el t (relative a b t) x y).
      assert (N : NoDup (concat [[m_t m]; m_u_par m])).
      { pose proof (sho_inputs_NoDup _ T) as N. cbn [concat all_sym_list app] in N |- *. fold m in N.
        apply NoDup_cons_iff in N. destruct N as [N1 N2]. constructor.
        - intros H. apply N1. rewrite !in_app_iff. rewrite in_app_iff in H. tauto.
        - do 4 apply NoDup_app_r in N2. exact N2. }
      assert (V : vals F env v (map (eval F rho)
                 (map (fun e0 => convert_expr_from_tau_to_time e0 (m_t m) (m_tau m) a b) (m_u_expr m)))).
      { refine (call_blocks F env _ _ _ _ _ _ HF N Hfu Hc _).
        apply Forall2_cons; [cbn [map]; unfold rho; rewrite gv_t; constructor; [reflexivity | constructor]|].
        apply Forall2_cons; [unfold rho; rewrite (gv_u _ _ _ _ _ Lx Ly), Vu; apply vals_vars | constructor]. }
      apply vals_values. eapply vals_Qeq; [exact V|]. apply gv_relative.
    Qed.
    Lemma gv_control : forall t xf zf v, length xf = length (m_x m) -> length zf = length (m_y m) ->
        shooting_control k st t (map EVar xf) (map EVar zf) p theta = Ok v ->
        Forall2 Qeq (map (eval F env) v) (during F k h el a b (m_u_expr m) (t, (map env xf, map env zf))).
    Proof.
      intros t xf zf v Lx Lz Hc. unfold shooting_control in Hc. cbn [st st_fu st_u] in Hc. destruct (k_direct k) eqn:Ed.
      - apply gv_control_direct; [rewrite map_length; exact Lx | rewrite map_length; exact Lz | exact Ed | exact Hc].
      - apply (gv_function a b (m_u_expr m) f_u t xf zf v Lx Lz); [|exact Hc].
        pose proof Hfu as E. unfold control_function in E. rewrite Ed in E. exact E.
    Qed.

    Lemma shoot_times_values : forall us xs ys groups fts start ts i t_0 x_i n c n' c' z shots,
        Forall2 (fun g ft => forall f, nth_error (fst ft) el = Some f ->
                   element_function k (boundary k el) (boundary k (S el)) g = Ok f) groups fts ->
        shoot_times buildable label defaults ty k st us xs ys fts p thetas start i ts t_0 x_i (n, c) = ((n', c'), Ok (z, shots)) ->
        computed F integrate defaults env shots ->
        n' = n /\ exists vs,
          course integrate defaults ty label k h el start i t_0 (map (eval F env) x_i) ts vs /\ length vs = length ts /\
          valued F env (g_x z) = selected xs ts (map fst vs) /\
          valued F env (g_y z) = selected ys ts (map snd vs) /\
          close (valued F env (g_u z)) (selected us ts (map (during F k h el a b (m_u_expr m)) (combine ts vs))) /\
          Forall2 (fun gft v => close (valued F env v)
                      (selected (Some (snd (snd gft))) ts
                         (map (during F k h el (boundary k el) (boundary k (S el)) (fst gft)) (combine ts vs))))
            (combine groups fts) (g_f z).
    Proof.
      intros us xs ys groups fts start ts. induction ts as [|t ts IH]; intros i t_0 x_i n c n' c' z shots HG H C.
      - cbn [shoot_times] in H. injection H as <- <- <- <-. split; [reflexivity|]. exists []. cbn [course g_x g_y g_u g_f].
        split; [exact I|]. split; [reflexivity|]. split; [reflexivity|]. split; [reflexivity|]. split; [constructor|].
        clear -HG. induction HG as [|g ft gs fts _ HG IH]; [constructor|]. cbn [combine map]. constructor; [constructor | exact IH].
      - cbn [shoot_times] in H. destruct (cbind_res_inv _ _ _ _ _ _ _ _ H) as [th [Et H1]]. clear H. cbv zeta in H1.
        cbn [st st_el st_dae st_u] in Et, H1. apply at_index_ok in Et. rewrite Hth in Et. injection Et as <-.
        destruct (cbind_inv _ _ _ _ _ _ _ _ H1) as [sh [[n1 c1] [Hsh H2]]]. clear H1.
        apply shoot_inv in Hsh. destruct Hsh as [-> [_ [Esh _]]].
        destruct (cbind_res_inv _ _ _ _ _ _ _ _ H2) as [u_t [Hut H3]]. clear H2.
        destruct (cbind_res_inv _ _ _ _ _ _ _ _ H3) as [f_t [Hft H4]]. clear H3.
        destruct (cbind_inv _ _ _ _ _ _ _ _ H4) as [[z1 shs] [[n2 c2] [Hr H5]]]. clear H4. cbn [fst snd] in H5. injection H5 as <- <- <- <-.
        inversion C as [|? ? C1 C2]; subst. clear C.
        destruct (IH _ _ _ _ _ _ _ _ _ HG Hr C2) as [-> [vs [Hc [Lv [Vx [Vy [Vuu Vf]]]]]]]. clear IH Hr.
        split; [reflexivity|]. cbn [sh_dae sh_x0 sh_tf sh_t0 sh_p sh_y0 sh_type sh_user sh_xf sh_zf] in C1, Hut, Hft, Hc |- *.
        set (xf := seq c (length (d_x (element_system k el)))) in *.
        set (zf := seq (c + length (d_x (element_system k el))) (end_size (element_system k el))) in *.
        assert (Lx : length xf = length (m_x m)) by apply (proj1 (gv_shot_sizes c)).
        assert (Lz : length zf = length (m_y m)) by apply (proj2 (gv_shot_sizes (c + length (d_x (element_system k el))))).
        rewrite gv_parameters in C1.
        exists ((map env xf, map env zf) :: vs). cbn [course]. cbn [fst].
        split; [split; [exact C1|]; destruct start; rewrite ?eval_vars in Hc; exact Hc|].
        split; [cbn [length]; rewrite Lv; reflexivity|]. cbn [map fst snd g_x g_y g_u g_f combine].
        rewrite !selected_cons, <- !among_asked.
        split; [|split; [|split]].
        + unfold valued in Vx |- *. rewrite map_app, Vx. destruct (among xs t); cbn [map app]; [rewrite eval_vars|]; reflexivity.
        + unfold valued in Vy |- *. rewrite map_app, Vy. destruct (among ys t); cbn [map app]; [rewrite eval_vars|]; reflexivity.
        + unfold valued in Vuu |- *. rewrite map_app. apply Forall2_app; [|exact Vuu]. rewrite <- among_asked in Hut.
          destruct (among us t); [|injection Hut as <-; constructor].
          destruct (shooting_control k _ _ _ _ _ _) as [v|] eqn:Ec; [|discriminate]. injection Hut as <-.
          cbn [map]. constructor; [|constructor]. apply gv_control; assumption.
        + clear C1 C2 Hut Hc Vx Vy Vuu Lv. revert f_t Hft Vf. generalize (g_f z1) as fs. induction HG as [|g ft gs fts Hg HG IH]; intros fs f_t Hft Vf.
          * cbn [res_map] in Hft. injection Hft as <-. cbn [combine] in *. inversion Vf; subst. constructor.
          * cbn [res_map] in Hft. cbn [combine] in Vf. inversion Vf as [|? v ? fs' V1 V2]; subst. clear Vf.
            match type of Hft with match ?x with _ => _ end = _ => destruct x as [ft0|] eqn:E0; [|discriminate] end.
            destruct (res_map _ fts) as [f_t'|] eqn:Ef; [|discriminate]. injection Hft as <-.
            cbn [combine map fst snd]. constructor; [|apply (IH fs' f_t' eq_refl V2)]. cbn [fst snd] in V1 |- *.
            rewrite selected_cons. unfold valued. rewrite map_app. apply Forall2_app; [|exact V1].
            rewrite among_some. destruct (in_times t (snd ft)); [|injection E0 as <-; constructor].
            destruct (at_index (fst ft) el KeyError) as [f|] eqn:Efn; [|discriminate]. apply at_index_ok in Efn.
            destruct (call_at f _) as [v0|] eqn:Ec; [|discriminate]. injection E0 as <-. cbn [map]. constructor; [|constructor].
            apply (gv_function _ _ g f t xf zf v0 Lx Lz (Hg f Efn)). exact Ec.
      + exact k.
    Qed.
  End Element.

  (** ** One element *)

  Section Call.
    Variables (bps : list Q) (x u : list (list (list sym))) (p : list expr) (thetas : list (list expr))
      (functions : list (list func)) (groups : list (list expr)) (start : bool).
    Hypothesis Hb : breakpoints k = Ok bps.
    Hypothesis D : stands_for F k env x u p thetas h.
    Hypothesis HG : Forall2 (fun es fs => element_functions k bps es = Ok fs) groups functions.

    Lemma gv_bps : bps = map (fun i => step_size k * q_of_nat i)%Q (seq 0 (K + 1)).
    Proof.
      unfold breakpoints, delta_t in Hb. pose proof (so_elements _ T) as N. destruct (Nat.eqb_spec (k_elements k) 0); [contradiction|].
      injection Hb as <-. reflexivity.
    Qed.

    Lemma f_times_inv : forall t_0 (fs : list (option (list Q))) f_ts,
        res_map (fun ts => match ts with
                           | None => Raise KeyError
                           | Some l => if in_times t_0 l then Raise NotImplementedErr else Ok l
                           end) fs = Ok f_ts -> fs = map Some f_ts.
    Proof.
      intros t_0 fs. induction fs as [|ts fs IH]; intros f_ts H; [injection H as <-; reflexivity|].
      cbn [res_map] in H. destruct ts as [l|]; [|discriminate]. destruct (in_times t_0 l); [discriminate|].
      destruct (res_map _ fs) as [l'|] eqn:E; [|discriminate]. injection H as <-. cbn [map]. rewrite <- (IH l' eq_refl). reflexivity.
    Qed.

    Lemma shoot_element_values : forall el w n c n' c' z shots, length (wd_f w) = length groups ->
        shoot_element buildable label defaults ty k bps x u p thetas functions start (el, w) (n, c) = ((n', c'), Ok (z, shots)) ->
        computed F integrate defaults env shots ->
        n' = n /\
        given_values F integrate defaults ty label k h el start groups w
          (valued F env (g_x z)) (valued F env (g_y z)) (valued F env (g_u z)) (map (valued F env) (g_f z)).
    Proof.
      intros el w n c n' c' z shots LF H C. unfold shoot_element in H.
      destruct (cbind_res_inv _ _ _ _ _ _ _ _ H) as [x0 [Hx H1]]. clear H.
      destruct (cbind_res_inv _ _ _ _ _ _ _ _ H1) as [ta [Ha H2]]. clear H1.
      destruct (cbind_res_inv _ _ _ _ _ _ _ _ H2) as [tb [Hbb H3]]. clear H2.
      destruct (cbind_res_inv _ _ _ _ _ _ _ _ H3) as [d [Hd H4]]. clear H3.
      destruct (cbind_res_inv _ _ _ _ _ _ _ _ H4) as [f_u [Hfu H5]]. clear H4. cbv zeta in H5.
      destruct (cguard_inv _ _ _ _ _ _ _ _ H5) as [Hg H6]. clear H5.
      destruct (cbind_res_inv _ _ _ _ _ _ _ _ H6) as [u_el [Hu H7]]. clear H6.
      destruct (cbind_res_inv _ _ _ _ _ _ _ _ H7) as [u_0 [Hu0 H8]]. clear H7.
      destruct (cbind_res_inv _ _ _ _ _ _ _ _ H8) as [f_ts [Hft H9]]. clear H8.
      destruct (cbind_inv _ _ _ _ _ _ _ _ H9) as [[z1 sh1] [[n1 c1] [H10 H11]]]. clear H9. cbn [fst snd] in H11.
      injection H11 as <- <- <- <-.
      rewrite gv_bps in Ha, Hbb. apply bps_at in Ha, Hbb. rewrite Nat.add_1_r in Hbb. subst ta tb.
      assert (Ed : d = element_system k el).
      { rewrite <- system_is. unfold system_between. unfold dae_convert_from_tau_to_time, get_dae_system in *. cbn [d_t d_tau fst] in *. injection Hd as <-. reflexivity. }
      subst d. clear Hd.
      destruct (at_index x el IndexError) as [x_el|] eqn:Ex; [|discriminate]. apply at_index_ok in Ex, Hx, Hu.
      pose proof (f_times_inv _ _ _ Hft) as Ef.
      (* the functions *)
      assert (HG' : Forall2 (fun g (ft : list func * list Q) => forall f, nth_error (fst ft) el = Some f ->
                   element_function k (boundary k el) (boundary k (S el)) g = Ok f) groups (combine functions f_ts)).
      { assert (L : length f_ts = length functions).
        { rewrite <- (Forall2_len _ _ _ _ _ HG), <- LF, Ef, map_length. reflexivity. }
        pose proof gv_bps as EB. clear -HG L EB. revert f_ts L. induction HG as [|es fs gs fns H1 HG' IH]; intros [|ts f_ts] L; try discriminate; [constructor|].
        cbn [combine]. constructor; [|apply IH; [exact HG'|]; injection L as L; exact L]. cbn [fst]. intros f Hf. rewrite EB in H1.
        exact (element_functions_at k es fs el f H1 Hf). }
      set (grid := sort_times (asked (wd_x w) ++ asked (wd_y w) ++ asked (wd_u w) ++ concat (map asked (wd_f w)))) in *.
      set (ts := filter (fun t => negb (Qeq_bool t (wd_t0 w))) grid) in *.
      (* the parameters of the element, when there is something to simulate *)
      assert (R : n1 = n /\ exists vs,
          course integrate defaults ty label k h el start 0 (wd_t0 w) (h_x h el) ts vs /\ length vs = length ts /\
          valued F env (g_x z1) = selected (wd_x w) ts (map fst vs) /\
          valued F env (g_y z1) = selected (wd_y w) ts (map snd vs) /\
          close (valued F env (g_u z1)) (selected (wd_u w) ts (map (during F k h el (wd_t0 w) (wd_tf w) (m_u_expr m)) (combine ts vs))) /\
          Forall2 (fun gft v => close (valued F env v)
                      (selected (Some (snd (snd gft))) ts
                         (map (during F k h el (boundary k el) (boundary k (S el)) (fst gft)) (combine ts vs))))
            (combine groups (combine functions f_ts)) (g_f z1)).
      { rewrite (sf_x _ _ _ _ _ _ _ _ D el x_el x0 Ex Hx), <- (eval_vars F env x0).
        destruct (nth_error thetas el) as [theta|] eqn:Eth.
        - apply (shoot_times_values el (wd_t0 w) (wd_tf w) f_u u_el p thetas theta Eth Hfu (sf_p _ _ _ _ _ _ _ _ D)
                   (sf_theta _ _ _ _ _ _ _ _ D el theta Eth) (sf_u _ _ _ _ _ _ _ _ D el u_el Hu)
                   (wd_u w) (wd_x w) (wd_y w) groups (combine functions f_ts) start ts 0 (wd_t0 w) (map EVar x0) n c n1 c1 z1 sh1 HG' H10 C).
        - destruct ts as [|t ts'].
          + cbn [shoot_times] in H10. injection H10 as <- <- <- <-. split; [reflexivity|]. exists []. cbn [course g_x g_y g_u g_f].
            split; [exact I|]. split; [reflexivity|]. split; [reflexivity|]. split; [reflexivity|]. split; [constructor|].
            clear -HG'. induction HG' as [|g ft gs fts _ HG' IH]; [constructor|]. cbn [combine map]. constructor; [constructor | exact IH].
          + cbn [shoot_times] in H10. destruct (cbind_res_inv _ _ _ _ _ _ _ _ H10) as [th [Et _]]. cbn [st_el] in Et. apply at_index_ok in Et.
            rewrite Eth in Et. discriminate. }
      destruct R as [-> [vs [Hc [Lv [Vx [Vy [Vu Vf]]]]]]]. split; [reflexivity|]. constructor. exists ts, vs.
      split; [|split; [|split; [exact Hc | split; [|split; [|split; [|split]]]]]].
      - unfold ts. apply sorted_distinct_filter. apply sort_times_sorted.
      - intros t. unfold ts, grid. rewrite InA_filter_Qeq, sort_times_In, !InA_app_iff, <- !in_times_In, <- !among_asked.
        apply and_iff_compat_l. apply or_iff_compat_l, or_iff_compat_l, or_iff_compat_l. rewrite in_times_In. apply InA_asked.
      - cbn [g_x]. unfold valued in Vx |- *. rewrite map_app, Vx, <- among_asked. destruct (among (wd_x w) (wd_t0 w)); [|reflexivity].
        cbn [map app]. rewrite eval_vars, (sf_x _ _ _ _ _ _ _ _ D el x_el x0 Ex Hx). reflexivity.
      - exact Vy.
      - cbn [g_u]. unfold valued in Vu |- *. rewrite map_app. apply Forall2_app; [|exact Vu]. rewrite <- among_asked in Hu0.
        destruct (among (wd_u w) (wd_t0 w)); [|injection Hu0 as <-; constructor].
        destruct (k_direct k) eqn:Edir; [|discriminate].
        unfold shooting_control in Hu0. rewrite Edir in Hu0. cbn [st_fu st_u] in Hu0.
        destruct (call f_u _) as [v|] eqn:Ec; [|discriminate]. injection Hu0 as <-. cbn [map]. constructor; [|constructor].
        apply (gv_control_direct el (wd_t0 w) (wd_tf w) f_u u_el Hfu (sf_u _ _ _ _ _ _ _ _ D el u_el Hu)
                 (wd_t0 w) (h_x h el) (h_y h el) v (ws_x _ _ W el) (ws_y _ _ W el) Edir Ec).
      - cbn [g_f]. rewrite map_length, <- (Forall2_len _ _ _ _ _ Vf), combine_length, <- (Forall2_len _ _ _ _ _ HG').
        apply Nat.min_id.
      - intros j es l Hes Hl. rewrite Ef, nth_error_map in Hl. destruct (nth_error f_ts j) as [l'|] eqn:El; [|discriminate].
        injection Hl as <-.
        assert (Hfn : exists fs, nth_error functions j = Some fs).
        { destruct (nth_error functions j) as [fs|] eqn:E; [exists fs; reflexivity|]. apply nth_error_None in E.
          assert (X : j < length groups) by (apply nth_error_Some; congruence). rewrite (Forall2_len _ _ _ _ _ HG) in X. lia. }
        destruct Hfn as [fs Hfs].
        pose proof (ColElementProofs.combine_nth_error _ _ _ _ _ _ _ Hes (ColElementProofs.combine_nth_error _ _ _ _ _ _ _ Hfs El)) as N.
        destruct (Forall2_nth _ _ _ _ _ _ _ Vf N) as [v [Hv V]]. cbn [fst snd] in V.
        exists (valued F env v). cbn [g_f]. rewrite nth_error_map, Hv. split; [reflexivity | exact V].
    Qed.

    (** ** All elements *)

    Lemma shoot_elements_values : forall demands n c n' c' zs shots,
        Forall (fun ew => length (wd_f (snd ew)) = length groups) demands ->
        shoot_elements buildable label defaults ty k bps x u p thetas functions start demands (n, c) = ((n', c'), Ok (zs, shots)) ->
        computed F integrate defaults env shots ->
        n' = n /\
        Forall2 (fun ew z => given_values F integrate defaults ty label k h (fst ew) start groups (snd ew)
          (valued F env (g_x z)) (valued F env (g_y z)) (valued F env (g_u z)) (map (valued F env) (g_f z))) demands zs.
    Proof.
      intros demands n c n' c' zs shots LF H C. unfold shoot_elements in H.
      destruct (cbind_inv _ _ _ _ _ _ _ _ H) as [out [[n1 c1] [H1 H2]]]. clear H. injection H2 as <- <- <- <-.
      revert n c n1 c1 out H1 C LF. induction demands as [|[el w] l IH]; intros n c n1 c1 out H1 C LF.
      - injection H1 as <- <- <-. split; [reflexivity | constructor].
      - cbn [ctraverse] in H1. destruct (cbind_inv _ _ _ _ _ _ _ _ H1) as [[z sh] [[n2 c2] [E1 E2]]]. clear H1.
        destruct (cbind_inv _ _ _ _ _ _ _ _ E2) as [out' [[n3 c3] [E3 E4]]]. clear E2. injection E4 as <- <- <-.
        cbn [map snd fst concat] in C |- *. unfold computed in C. apply Forall_app in C. destruct C as [C1 C2].
        inversion LF as [|? ? L1 L2]; subst. cbn [snd] in L1.
        destruct (shoot_element_values el w n c n2 c2 z sh L1 E1 C1) as [-> V].
        destruct (IH n c2 n3 c3 out' E3 C2 L2) as [-> Vs]. split; [reflexivity|]. constructor; [exact V | exact Vs].
    Qed.
  End Call.
End Given.

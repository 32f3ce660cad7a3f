(** Proofs about the transcription by multiple shooting: what the constraints mean. *)
From Coq Require Import String Permutation Lqa.
From Verif Require Import Base BaseProofs UtilModel UtilProofs ExprModel ExprProofs NlpModel NlpSpec NlpProofs SysModel
  SysSpec SysProofs SimModel OcpModel OcpSpec OcpMoreProofs LagModel LagSpec LagProofs DiscModel DiscSpec DiscProofs
  ColSpec ColEvalProofs ColProofs ColElementProofs ColIncludeProofs ColAssemblyProofs ColMainProofs ColTopProofs
  ShoModel ShoSpec ShoShotProofs.
Local Open Scope list_scope.
Local Open Scope nat_scope.

Lemma chosen_unique : forall names opt g d v v', chosen names opt g d v -> chosen names opt g d v' -> v = v'.
Proof.
  intros names opt g d v v' [L H] [L' H'].
  assert (E : forall i, nth_error v i = nth_error v' i).
  { intros i. destruct (nth_error names i) as [n|] eqn:En.
    - destruct (H i n En) as [A B]. destruct (H' i n En) as [A' B'].
      destruct (in_dec Nat.eq_dec n opt) as [Hin|Hn].
      + apply In_nth_error in Hin. destruct Hin as [j Hj]. rewrite (B j Hj), (B' j Hj). reflexivity.
      + rewrite (A Hn), (A' Hn). reflexivity.
    - apply nth_error_None in En. rewrite (proj2 (nth_error_None v i)), (proj2 (nth_error_None v' i)); [reflexivity | lia | lia]. }
  clear -E. revert v' E. induction v as [|a v IH]; intros [|b v'] E.
  - reflexivity.
  - discriminate (E 0).
  - discriminate (E 0).
  - specialize (E 0) as E0. injection E0 as ->. f_equal. apply IH. intros i. apply (E (S i)).
Qed.
Lemma Forall2_weaken : forall (A B : Type) (R R' : A -> B -> Prop) l l', (forall a b, R a b -> R' a b) -> Forall2 R l l' -> Forall2 R' l l'.
Proof. intros A B R R' l l' H HR. induction HR; constructor; auto. Qed.
Lemma firstn_app_len : forall (A : Type) (a b : list A), firstn (length a) (a ++ b) = a.
Proof. intros A a b. rewrite firstn_app, Nat.sub_diag, firstn_all, app_nil_r. reflexivity. Qed.
Lemma skipn_app_len : forall (A : Type) (a b : list A), skipn (length a) (a ++ b) = b.
Proof. intros A a b. rewrite skipn_app, Nat.sub_diag, skipn_all. reflexivity. Qed.
Lemma eval_vars : forall F env v, map (eval F env) (map EVar v) = map env v.
Proof. intros F env v. rewrite map_map. reflexivity. Qed.
Lemma single_row : forall (A : Type) d (l : list (list A)) a, rows 1 d l -> nth_error l 0 = Some a -> concat l = a /\ length a = d.
Proof.
  intros A d l a [L R] H. destruct l as [|b [|c l]]; try discriminate. injection H as <-. cbn [concat]. rewrite app_nil_r.
  split; [reflexivity|]. inversion R; assumption.
Qed.

(** ** Constraints on one value each *)

Lemma constraint_run : forall F env rho (include : list expr -> cmd nlp_state unit) (P : Q -> Prop),
    (forall a b, (a == b)%Q -> P a -> P b) ->
    (forall es vs, vals F env es vs -> imposes F env (include es) (Forall P vs) (length es)) ->
    forall gs vs, Forall2 (fun g v => vals F env v [eval F rho g]) gs vs ->
    imposes F env (crun (fun g => cbind (cres (at_index g 0 IndexError)) (fun v => include v)) (map (fun v => [v]) vs))
      (forall g, In g gs -> P (eval F rho g)) (length gs).
Proof.
  intros F env rho include P HP Hinc gs vs H. induction H as [|g v gs vs Hg H IH].
  - eapply imposes_iff; [apply imposes_ret| |reflexivity]. split; [intros _ g [] | intros _; exact I].
  - assert (S1 : imposes F env (cbind (cres (at_index [v] 0 IndexError)) (fun v => include v)) (P (eval F rho g)) 1).
    { apply imposes_res. intros v' E. injection E as <-. eapply imposes_iff; [apply (Hinc _ _ Hg)| |apply (vals_length _ _ _ _ Hg)].
      split; [intros A; inversion A; assumption | intros A; constructor; [exact A | constructor]]. }
    eapply imposes_iff; [apply (imposes_seq F env _ _ _ _ _ _ S1 IH)| |reflexivity].
    split; [intros [A B] x [<-|Hx]; [exact A | apply B, Hx] | intros A; split; [apply A; left; reflexivity | intros x Hx; apply A; right; exact Hx]].
Qed.

Section Values.
  Variables (F : nat -> Q -> Q) (k : method).
  Variables (env : sym -> Q) (s : par_syms) (r : traj sym) (h : shooting).
  Hypothesis HF : respects F.
  Hypothesis T : shootable k.
  Hypothesis Sh : shooting_shape k r.
  Hypothesis D : describes_shooting k env s r h.
  Hypothesis Hp : length (ps_p s) = n_p k.
  Hypothesis Hth : rows (k_elements k) (n_theta k) (ps_theta s).
  Hypothesis Hx0 : length (ps_x0 s) = n_x k.
  Let m : model := k_model k.
  Let o : ocp := k_problem k.
  Let K : nat := k_elements k.
  Let vals := vals F env.
  Let imposes := imposes F env.

  (** ** Distinct symbols *)

  Lemma sho_inputs_NoDup : NoDup (concat (all_sym_list m)).
  Proof.
    pose proof (so_symbols _ T) as N. unfold problem_symbols in N. fold m o in N. cbn [concat app all_sym_list]. rewrite app_nil_r.
    apply (nodup_drop _ [m_t m] [m_tau m]) in N. cbn [app] in N.
    apply NoDup_app_l with (l' := m_x_0 m ++ o_eta o). cbn [app]. rewrite <- !app_assoc. exact N.
  Qed.
  Lemma sho_spaces_NoDup : NoDup (m_x m ++ m_y m ++ m_p m ++ m_theta m ++ m_u_par m ++ m_x_0 m ++ o_eta o).
  Proof.
    pose proof (so_symbols _ T) as N. unfold problem_symbols in N. fold m o in N.
    apply NoDup_cons_iff in N. destruct N as [_ N]. apply NoDup_cons_iff in N. apply N.
  Qed.
  Lemma sho_p_NoDup : NoDup (m_p m).
  Proof. pose proof sho_spaces_NoDup as N. apply NoDup_app_r in N. apply NoDup_app_r in N. apply NoDup_app_l in N. exact N. Qed.
  Lemma sho_theta_NoDup : NoDup (m_theta m).
  Proof. pose proof sho_spaces_NoDup as N. do 3 apply NoDup_app_r in N. apply NoDup_app_l in N. exact N. Qed.
  Lemma sho_initial_NoDup : NoDup (concat [m_x m; m_x_0 m]).
  Proof.
    cbn [concat]. rewrite app_nil_r. pose proof sho_spaces_NoDup as N.
    do 4 apply nodup_drop in N. apply nodup_front in N. exact N.
  Qed.
  Lemma sho_final_NoDup : NoDup (concat [m_x m; o_eta o; m_p m]).
  Proof.
    cbn [concat]. rewrite app_nil_r. pose proof sho_spaces_NoDup as N. apply nodup_drop in N.
    assert (N2 : NoDup (m_x m ++ m_p m ++ o_eta o)).
    { rewrite (app_assoc (m_x m)) in N. do 3 apply nodup_drop in N. rewrite <- app_assoc in N. exact N. }
    refine (Permutation_NoDup _ N2).
    apply Permutation_app_head, Permutation_app_comm.
  Qed.
  Lemma sho_cost_NoDup : NoDup (concat [m_x m; m_p m]).
  Proof.
    cbn [concat]. rewrite app_nil_r. pose proof sho_spaces_NoDup as N. apply nodup_drop in N. apply nodup_front in N. exact N.
  Qed.

  (** ** Sizes *)

  Lemma state_row : forall el, el < K + 1 -> exists l x, nth_error (r_x r) el = Some l /\ nth_error l 0 = Some x /\
      h_x h el = map env x /\ length x = n_x k.
  Proof.
    intros el Hel. destruct Sh as [[L R] _]. rewrite Forall_forall in R.
    destruct (nth_error (r_x r) el) as [l|] eqn:E; [|apply nth_error_None in E; unfold K in Hel; lia].
    pose proof (R l (nth_error_In _ _ E)) as Rl. destruct (nth_error l 0) as [x|] eqn:Ex; [|apply nth_error_None in Ex; destruct Rl; lia].
    destruct (single_row _ _ _ _ Rl Ex) as [Ec Lx]. exists l, x. split; [reflexivity|]. split; [exact Ex|]. split; [|exact Lx].
    rewrite (ds_x _ _ _ _ _ D el l E), Ec. reflexivity.
  Qed.
  Lemma len_hx : forall el, el < K + 1 -> length (h_x h el) = n_x k.
  Proof. intros el Hel. destruct (state_row el Hel) as [l [x [_ [_ [-> L]]]]]. rewrite map_length. exact L. Qed.
  Lemma algebraic_row : forall el, el < K -> exists l y, nth_error (r_y r) el = Some l /\ nth_error l 0 = Some y /\
      h_y h el = map env y /\ length y = n_y k.
  Proof.
    intros el Hel. destruct Sh as [_ [[L R] _]]. rewrite Forall_forall in R.
    destruct (nth_error (r_y r) el) as [l|] eqn:E; [|apply nth_error_None in E; unfold K in Hel; lia].
    pose proof (R l (nth_error_In _ _ E)) as Rl. destruct (nth_error l 0) as [x|] eqn:Ex; [|apply nth_error_None in Ex; destruct Rl; lia].
    destruct (single_row _ _ _ _ Rl Ex) as [Ec Lx]. exists l, x. split; [reflexivity|]. split; [exact Ex|]. split; [|exact Lx].
    rewrite (ds_y _ _ _ _ _ D el l E), Ec. reflexivity.
  Qed.
  Lemma len_hy : forall el, el < K -> length (h_y h el) = n_y k.
  Proof. intros el Hel. destruct (algebraic_row el Hel) as [l [x [_ [_ [-> L]]]]]. rewrite map_length. exact L. Qed.
  Lemma len_hp : length (h_p h) = n_p k.
  Proof. apply (ds_p _ _ _ _ _ D). Qed.
  Lemma sho_theta_row : forall el, el < K -> exists g d, nth_error (ps_theta s) el = Some g /\ nth_error (r_theta r) el = Some d /\
      length g = n_theta k /\ length d = n_theta_opt k.
  Proof.
    intros el Hel. destruct Hth as [L1 R1]. destruct Sh as [_ [_ [_ [_ [_ [L2 R2]]]]]].
    rewrite Forall_forall in R1, R2.
    destruct (nth_error (ps_theta s) el) as [g|] eqn:Eg; [|apply nth_error_None in Eg; unfold K in Hel; lia].
    destruct (nth_error (r_theta r) el) as [d|] eqn:Ed; [|apply nth_error_None in Ed; unfold K in Hel; lia].
    exists g, d. repeat split; [apply R1, (nth_error_In _ _ Eg) | apply R2, (nth_error_In _ _ Ed)].
  Qed.
  Lemma len_htheta : forall el, el < K -> length (h_theta h el) = n_theta k.
  Proof. intros el Hel. destruct (sho_theta_row el Hel) as [g [d [Eg [Ed _]]]]. apply (ds_theta _ _ _ _ _ D el g d Eg Ed). Qed.
  Lemma len_hu : forall el, el < K -> length (h_u h el) = n_u_par k.
  Proof.
    intros el Hel. destruct Sh as [_ [_ [[L R] _]]]. rewrite Forall_forall in R.
    destruct (nth_error (r_u r) el) as [l|] eqn:E; [|apply nth_error_None in E; unfold K in Hel; lia].
    rewrite (ds_u _ _ _ _ _ D el l E), map_length.
    rewrite (rows_concat_length _ _ _ _ (R l (nth_error_In _ _ E))). symmetry. apply (so_controls _ T).
  Qed.
  Lemma len_hx0 : length (h_x0 h) = length (m_x_0 m).
  Proof. rewrite (ds_x0 _ _ _ _ _ D), map_length, Hx0. symmetry. apply (so_initial _ T). Qed.
  Lemma len_heta : length (h_eta h) = n_eta k.
  Proof. rewrite (ds_eta _ _ _ _ _ D), map_length. apply Sh. Qed.

  (** ** The values at a point *)

  Section Point.
    Variables (el : nat) (t tau : Q) (x y : list Q).
    Hypothesis Hel : el < K.
    Hypothesis Lx : length x = n_x k.
    Hypothesis Ly : length y = n_y k.
    Notation rho := (point_of k h el t tau x y).

    Lemma of_t : rho (m_t m) = t.
    Proof. unfold point_of, problem_symbols. cbn [assign]. fold m. destruct (Nat.eq_dec (m_t m) (m_t m)); [reflexivity | congruence]. Qed.
    Lemma of_tau : rho (m_tau m) = tau.
    Proof.
      unfold point_of, problem_symbols. cbn [assign]. fold m. pose proof (so_symbols _ T) as N. unfold problem_symbols in N. fold m in N.
      apply NoDup_cons_iff in N. destruct N as [N _].
      destruct (Nat.eq_dec (m_tau m) (m_t m)) as [E|_]; [exfalso; apply N; left; exact E|].
      destruct (Nat.eq_dec (m_tau m) (m_tau m)); [reflexivity | congruence].
    Qed.
    Lemma of_block : forall pre blk post vpre vblk vpost,
        problem_symbols k = pre ++ blk ++ post ->
        t :: tau :: x ++ y ++ h_p h ++ h_theta h el ++ h_u h el ++ h_x0 h ++ h_eta h = vpre ++ vblk ++ vpost ->
        length pre = length vpre -> length blk = length vblk -> map rho blk = vblk.
    Proof.
      intros pre blk post vpre vblk vpost E1 E2 L1 L2. unfold point_of. rewrite E1, E2.
      apply assign_block; [|exact L1 | exact L2]. rewrite <- E1. apply (so_symbols _ T).
    Qed.
    Ltac lens := cbn [length]; rewrite ?app_length, ?Lx, ?Ly, ?len_hp, ?len_htheta, ?len_hu, ?len_hx0, ?len_heta by exact Hel; reflexivity.
    Ltac split_at := unfold problem_symbols; fold m o; cbn [app]; rewrite <- ?app_assoc, ?app_nil_r; reflexivity.
    Lemma of_x : map rho (m_x m) = x.
    Proof.
      apply (of_block (m_t m :: m_tau m :: []) (m_x m) (m_y m ++ m_p m ++ m_theta m ++ m_u_par m ++ m_x_0 m ++ o_eta o)
               (t :: tau :: []) x (y ++ h_p h ++ h_theta h el ++ h_u h el ++ h_x0 h ++ h_eta h));
        [split_at | split_at | lens | lens].
    Qed.
    Lemma of_y : map rho (m_y m) = y.
    Proof.
      apply (of_block (m_t m :: m_tau m :: m_x m) (m_y m) (m_p m ++ m_theta m ++ m_u_par m ++ m_x_0 m ++ o_eta o)
               (t :: tau :: x) y (h_p h ++ h_theta h el ++ h_u h el ++ h_x0 h ++ h_eta h));
        [split_at | split_at | lens | lens].
    Qed.
    Lemma of_p : map rho (m_p m) = h_p h.
    Proof.
      apply (of_block (m_t m :: m_tau m :: m_x m ++ m_y m) (m_p m) (m_theta m ++ m_u_par m ++ m_x_0 m ++ o_eta o)
               (t :: tau :: x ++ y) (h_p h) (h_theta h el ++ h_u h el ++ h_x0 h ++ h_eta h));
        [split_at | split_at | lens | lens].
    Qed.
    Lemma of_theta : map rho (m_theta m) = h_theta h el.
    Proof.
      apply (of_block (m_t m :: m_tau m :: m_x m ++ m_y m ++ m_p m) (m_theta m) (m_u_par m ++ m_x_0 m ++ o_eta o)
               (t :: tau :: x ++ y ++ h_p h) (h_theta h el) (h_u h el ++ h_x0 h ++ h_eta h));
        [split_at | split_at | lens | lens].
    Qed.
    Lemma of_u : map rho (m_u_par m) = h_u h el.
    Proof.
      apply (of_block (m_t m :: m_tau m :: m_x m ++ m_y m ++ m_p m ++ m_theta m) (m_u_par m) (m_x_0 m ++ o_eta o)
               (t :: tau :: x ++ y ++ h_p h ++ h_theta h el) (h_u h el) (h_x0 h ++ h_eta h));
        [split_at | split_at | lens | lens].
    Qed.
    Lemma of_x0 : map rho (m_x_0 m) = h_x0 h.
    Proof.
      apply (of_block (m_t m :: m_tau m :: m_x m ++ m_y m ++ m_p m ++ m_theta m ++ m_u_par m) (m_x_0 m) (o_eta o)
               (t :: tau :: x ++ y ++ h_p h ++ h_theta h el ++ h_u h el) (h_x0 h) (h_eta h));
        [split_at | split_at | lens | lens].
    Qed.
    Lemma of_eta : map rho (o_eta o) = h_eta h.
    Proof.
      apply (of_block (m_t m :: m_tau m :: m_x m ++ m_y m ++ m_p m ++ m_theta m ++ m_u_par m ++ m_x_0 m) (o_eta o) []
               (t :: tau :: x ++ y ++ h_p h ++ h_theta h el ++ h_u h el ++ h_x0 h) (h_eta h) []);
        [split_at | split_at | lens | lens].
    Qed.
  End Point.

  (** ** Parameters *)

  Lemma sho_p_value : h_p h = map (eval F env) (with_p_opt k (ps_p s) r).
  Proof.
    destruct (so_own _ T) as [[O1 _] [N1 _]]. unfold with_p_opt.
    apply (chosen_unique _ _ _ _ _ _ (ds_p _ _ _ _ _ D)).
    apply chosen_exists; [apply sho_p_NoDup | exact N1 | | exact Hp | apply Sh].
    apply (opt_indices o O1), sho_p_NoDup.
  Qed.
  Lemma sho_theta_value : forall el theta, nth_error (with_theta_opt k (ps_theta s) r) el = Some theta ->
      h_theta h el = map (eval F env) theta.
  Proof.
    intros el theta H. unfold with_theta_opt in H. rewrite nth_error_map in H.
    destruct (nth_error (combine (ps_theta s) (r_theta r)) el) as [[g d]|] eqn:E; [|discriminate]. injection H as <-. cbn [fst snd].
    assert (Hel : el < K).
    { assert (A : el < length (combine (ps_theta s) (r_theta r))) by (apply nth_error_Some; congruence).
      rewrite combine_length in A. destruct Hth as [L1 _]. unfold K. lia. }
    destruct (sho_theta_row el Hel) as [g' [d' [Eg [Ed [Lg Ld]]]]].
    rewrite (combine_nth_error _ _ _ _ _ _ _ Eg Ed) in E. injection E as <- <-.
    destruct (so_own _ T) as [[_ O1] [_ N1]].
    apply (chosen_unique _ _ _ _ _ _ (ds_theta _ _ _ _ _ D el g' d' Eg Ed)).
    apply chosen_exists; [apply sho_theta_NoDup | exact N1 | | exact Lg | exact Ld].
    apply (opt_theta_indices o O1), sho_theta_NoDup.
  Qed.
  Lemma vals_of : forall es v, v = map (eval F env) es -> vals es v.
  Proof. intros es v ->. induction es as [|e es IH]; constructor; [reflexivity | exact IH]. Qed.

  (** ** One element *)

  Section Element.
    Variables (integrate : icall -> res (list Q * list Q)) (defaults : options) (ty : string) (label : nat -> nat -> string).
    Variables (el : nat) (z : reached) (sh : shot).
    Hypothesis Hel : el < K.
    Hypothesis Tk : taken label ty k r (with_p_opt k (ps_p s) r) (with_theta_opt k (ps_theta s) r) el z sh.

    Lemma shot_arguments : map (eval F env) (sh_x0 sh) = h_x h el /\
        map (eval F env) (sh_p sh) = h_p h ++ h_theta h el ++ h_u h el.
    Proof.
      destruct Tk as [_ [x_el [x0 [u_el [theta [i [vs [E1 [E2 [E3 [E4 [-> [_ _]]]]]]]]]]]]]. cbn [sh_x0 sh_p].
      destruct (state_row el) as [l [x [F1 [F2 [F3 _]]]]]; [lia|]. rewrite E1 in F1. injection F1 as <-. rewrite E2 in F2. injection F2 as <-.
      split; [rewrite eval_vars; symmetry; exact F3|].
      rewrite sho_p_value, (sho_theta_value el theta E4). pose proof (ds_u _ _ _ _ _ D el u_el E3) as Eu. destruct (k_direct k) eqn:Ed.
      - rewrite !map_app, eval_vars, Eu. reflexivity.
      - pose proof (len_hu el Hel) as L. unfold n_u_par in L. rewrite (so_indirect _ T Ed) in L.
        destruct (h_u h el); [|discriminate]. rewrite map_app, app_nil_r. reflexivity.
    Qed.
    Lemma shot_simulation :
        dae_simulate integrate defaults (sh_dae sh) (map (eval F env) (sh_x0 sh)) (sh_tf sh) (sh_t0 sh)
          (map (eval F env) (sh_p sh)) (sh_y0 sh) (sh_type sh) (sh_user sh) = simulation integrate defaults ty label k h el.
    Proof.
      destruct shot_arguments as [-> ->]. destruct Tk as [_ [x_el [x0 [u_el [theta [i [vs [_ [_ [_ [_ [-> _]]]]]]]]]]]].
      reflexivity.
    Qed.
    Lemma shot_sizes : length (sh_xf sh) = n_x k /\ length (sh_zf sh) = n_y k.
    Proof.
      destruct Tk as [_ [x_el [x0 [u_el [theta [i [vs [_ [_ [_ [_ [-> _]]]]]]]]]]]]. cbn [sh_xf sh_zf]. rewrite !seq_length.
      split; [reflexivity|]. unfold end_size, dae_is_dae, dae_is_ode, element_system. cbn [d_alg d_y]. fold m. rewrite !map_length.
      pose proof (so_algebraic _ T) as A. fold m in A. unfold n_y. fold m. destruct (m_y m) as [|y l]; [reflexivity|].
      rewrite A. reflexivity.
    Qed.

    (** The values of the simulation. *)
    Definition reached_values : list Q * list Q := (map env (sh_xf sh), map env (sh_zf sh)).
    Notation rho := (point_of k h el (boundary k (S el)) 1%Q (map env (sh_xf sh)) (map env (sh_zf sh))).

    Lemma element_values : exists vs, z = mkReached [map EVar (sh_xf sh)] [map EVar (sh_zf sh)] [] (map (fun v => [v]) vs) /\
        Forall2 (fun es v => vals v (map (eval F rho) es)) (groups k) vs.
    Proof.
      pose proof shot_sizes as [Lx Lz]. destruct Tk as [Ht [x_el [x0 [u_el [theta [i [vs [E1 [E2 [E3 [E4 [Esh [Ez V]]]]]]]]]]]]].
      exists vs. rewrite Esh in Lx, Lz |- *. cbn [sh_xf sh_zf] in *. split; [exact Ez|].
      refine (Forall2_weaken _ _ _ _ _ _ _ V). intros es v [f [Hf Hc]].
      unfold element_function in Hf. unfold call_at in Hc. cbn [pt_t pt_x pt_y pt_p pt_theta pt_u] in Hc.
      match type of Hc with call f [_; map EVar ?a; map EVar ?b; _; _; _] = _ => set (xf := a) in *; set (zf := b) in * end.
      set (rho := point_of k h el (boundary k (S el)) 1%Q (map env xf) (map env zf)).
      assert (L1 : length (map env xf) = n_x k) by (rewrite map_length; exact Lx).
      assert (L2 : length (map env zf) = n_y k) by (rewrite map_length; exact Lz).
      assert (W : vals v (map (eval F rho)
                 (map (fun e0 => convert_expr_from_tau_to_time e0 (m_t m) (m_tau m) (boundary k el) (boundary k (S el))) es))).
      { refine (call_blocks F env _ _ _ _ _ _ HF sho_inputs_NoDup Hf Hc _). unfold all_sym_list. fold m.
        apply Forall2_cons; [cbn [map]; unfold rho; rewrite of_t; constructor; [reflexivity | constructor]|].
        apply Forall2_cons; [unfold rho; rewrite (of_x _ _ _ _ _ L1); apply vals_vars|].
        apply Forall2_cons; [unfold rho; rewrite (of_y _ _ _ _ _ L1 L2); apply vals_vars|].
        apply Forall2_cons; [unfold rho; rewrite (of_p _ _ _ _ _ L1 L2); apply vals_of, sho_p_value|].
        apply Forall2_cons; [unfold rho; rewrite (of_theta _ _ _ _ _ Hel L1 L2); apply vals_of, (sho_theta_value el theta E4)|].
        apply Forall2_cons; [unfold rho; rewrite (of_u _ _ _ _ _ Hel L1 L2), (ds_u _ _ _ _ _ D el u_el E3); apply vals_vars | constructor]. }
      eapply vals_Qeq; [exact W|]. rewrite map_map. clear W Hf Hc. induction es as [|a es IH]; constructor; [|exact IH].
      rewrite tau_to_time_value. apply eval_ext_Qeq; [exact HF|]. intros w _. unfold upd.
      destruct (Nat.eqb_spec w (m_tau m)) as [->|]; [|reflexivity].
      unfold rho. rewrite of_tau, of_t. field. intros E. apply Ht. lra.
    Qed.
  End Element.

  (** ** All elements *)

  Section Assembly.
    Variables (ty : string) (label : nat -> nat -> string) (zs : list reached) (shots : list shot).
    Hypothesis Lzs : length zs = K.
    Hypothesis Lshots : length shots = K.
    Hypothesis HT : forall el z sh, nth_error zs el = Some z -> nth_error shots el = Some sh ->
      taken label ty k r (with_p_opt k (ps_p s) r) (with_theta_opt k (ps_theta s) r) el z sh.
    Variable ends : nat -> list Q * list Q.
    Hypothesis HE : forall el sh, nth_error shots el = Some sh -> ends el = (map env (sh_xf sh), map env (sh_zf sh)).

    Lemma at_element : forall el z, nth_error zs el = Some z -> el < K /\ exists xf zf vs,
        z = mkReached [map EVar xf] [map EVar zf] [] (map (fun v => [v]) vs) /\
        ends el = (map env xf, map env zf) /\ length xf = n_x k /\ length zf = n_y k /\
        Forall2 (fun es v => vals v (map (eval F (end_point k h ends el)) es)) (groups k) vs.
    Proof.
      intros el z Hz. assert (Hel : el < K) by (rewrite <- Lzs; apply nth_error_Some; congruence). split; [exact Hel|].
      destruct (nth_error shots el) as [sh|] eqn:Es; [|apply nth_error_None in Es; lia].
      pose proof (HT el z sh Hz Es) as Tk. destruct (element_values ty label el z sh Hel Tk) as [vs [Ez V]].
      destruct (shot_sizes ty label el z sh Tk) as [L1 L2].
      exists (sh_xf sh), (sh_zf sh), vs. split; [exact Ez|]. split; [exact (HE el sh Es)|]. split; [exact L1|]. split; [exact L2|].
      unfold end_point. rewrite (HE el sh Es). exact V.
    Qed.

    Definition shot_ok (i : nat) : Prop :=
      Forall2 Qeq (continued k (fst (ends i))) (h_x h (S i)) /\
      Forall2 Qeq (snd (ends i)) (h_y h i) /\
      (forall j lo hi, nth_error (o_du_min o) j = Some lo -> nth_error (o_du_max o) j = Some hi ->
         ext_le lo (Fin (control_step h i j)) /\ ext_le (Fin (control_step h i j)) hi) /\
      (forall g, In g (o_g_ineq o) -> (eval F (end_point k h ends i) g <= 0)%Q) /\
      (forall g, In g (o_g_eq o) -> (eval F (end_point k h ends i) g == 0)%Q).
    Definition shot_rows : nat :=
      n_x k + (n_y k + (bounded_increments o + (length (o_g_ineq o) + length (o_g_eq o)))).

    Lemma arrival_vals : forall xf xa, arrival k (map EVar xf) = Ok xa ->
        vals xa (continued k (map env xf)) /\ length (continued k (map env xf)) = length xf.
    Proof.
      intros xf xa H. unfold arrival in H. unfold continued. destruct (k_direct k && k_cost_as_sum k)%bool.
      - destruct (exists_last (l := xf)) as [l [a El]]; [intros E; subst xf; discriminate|]. subst xf.
        rewrite map_app in H. cbn [map] in H. rewrite map_app. cbn [map]. rewrite removelast_last.
        destruct (map EVar l ++ [EVar a]) eqn:E; [destruct (map EVar l); discriminate|]. rewrite <- E, removelast_last in H. injection H as <-.
        split; [|rewrite !app_length, map_length; reflexivity]. apply vals_app; [apply vals_vars | constructor; [reflexivity | constructor]].
      - injection H as <-. split; [apply vals_vars | apply map_length].
    Qed.

    Lemma include_shot_imposes : forall i, i < K -> imposes (include_shot k r (ps_last_u s) zs i) (shot_ok i) shot_rows.
    Proof.
      intros i Hi. unfold include_shot. apply imposes_res. intros z Hz. apply at_index_ok in Hz.
      destruct (at_element i z Hz) as [_ [xf [zf [vs [-> [Ee [Lx [Ly V]]]]]]]]. cbn [g_x g_y g_f].
      apply imposes_res. intros xf' E. injection E as <-. apply imposes_res. intros yf' E. injection E as <-.
      apply imposes_res. intros xa Hxa. destruct (arrival_vals xf xa Hxa) as [Va La].
      apply imposes_res. intros xn Hxn. apply imposes_res. intros e He.
      destruct (state_row (i + 1)) as [l [x [F1 [F2 [F3 F4]]]]]; [lia|].
      unfold at_index at 1 in Hxn. rewrite F1 in Hxn. unfold at_index in Hxn. rewrite F2 in Hxn. injection Hxn as <-.
      unfold shot_ok, shot_rows. rewrite Nat.add_1_r in F3.
      apply imposes_seq.
      { eapply imposes_iff; [apply (vec_sub_vals F env xa (map EVar x) (continued k (map env xf)) (h_x h (S i)))| |].
        - exact Va.
        - rewrite F3. apply vals_vars.
        - rewrite La, F3, map_length. congruence.
        - exact He.
        - rewrite Ee. reflexivity.
        - rewrite La. exact Lx. }
      apply imposes_res. intros yn Hyn. apply imposes_res. intros e' He'.
      destruct (algebraic_row i Hi) as [ly [y [G1 [G2 [G3 G4]]]]].
      unfold at_index at 1 in Hyn. rewrite G1 in Hyn. unfold at_index in Hyn. rewrite G2 in Hyn. injection Hyn as <-.
      apply imposes_seq.
      { eapply imposes_iff; [apply (vec_sub_vals F env (map EVar zf) (map EVar y) (map env zf) (h_y h i))| |].
        - apply vals_vars.
        - rewrite G3. apply vals_vars.
        - rewrite G3, !map_length. congruence.
        - exact He'.
        - rewrite Ee. reflexivity.
        - rewrite map_length. exact Ly. }
      apply imposes_seq.
      { eapply imposes_iff; [apply (increments_imposed F k env s r (h_u h) (h_last_u h) (so_bounds _ T) (ds_u _ _ _ _ _ D) (ds_last_u _ _ _ _ _ D) i)| |reflexivity].
        unfold rate_step, earlier, control_step, applied_before. reflexivity. }
      unfold groups in V. apply Forall2_app_inv_l in V. destruct V as [v1 [v' [V1 [V' ->]]]].
      apply Forall2_app_inv_l in V'. destruct V' as [v2 [v3 [V2 [_ ->]]]].
      apply Forall2_map_l in V1, V2. fold o in V1, V2.
      assert (N1 : firstn (length (o_g_ineq (k_problem k))) (map (fun v : list expr => [v]) (v1 ++ v2 ++ v3)) = map (fun v => [v]) v1).
      { rewrite map_app. fold o. rewrite (Forall2_len _ _ _ _ _ V1), <- (map_length (fun v : list expr => [v]) v1). apply firstn_app_len. }
      assert (N2 : firstn (length (o_g_eq (k_problem k))) (skipn (length (o_g_ineq (k_problem k))) (map (fun v : list expr => [v]) (v1 ++ v2 ++ v3))) = map (fun v => [v]) v2).
      { rewrite !map_app. fold o. rewrite (Forall2_len _ _ _ _ _ V1), <- (map_length (fun v : list expr => [v]) v1), skipn_app_len.
        rewrite (Forall2_len _ _ _ _ _ V2), <- (map_length (fun v : list expr => [v]) v2). apply firstn_app_len. }
      rewrite N1, N2. apply imposes_seq.
      - apply (constraint_run F env (end_point k h ends i) nlp_upper_zero (fun v => v <= 0)%Q).
        + intros a b E. rewrite E. trivial.
        + intros es ws W. apply imposes_upper, W.
        + exact V1.
      - apply (constraint_run F env (end_point k h ends i) nlp_equality (fun v => v == 0)%Q).
        + intros a b E. rewrite E. trivial.
        + intros es ws W. apply imposes_equality, W.
        + exact V2.
    Qed.

    Lemma shot_through_elements : shot_through F k h ends <->
        all_zero F (o_h_initial o) (first_point k h) /\ (forall i, In i (seq 0 K) -> shot_ok i) /\
        all_zero F (o_h_final o) (last_point k h) /\ all_zero F (o_h o) (last_point k h).
    Proof.
      split.
      - intros [A1 A2 A3 A4 A5 A6 A7 A8]. split; [exact A1|]. split; [|split; assumption].
        intros i Hi. apply in_seq in Hi. destruct Hi as [_ Hi]. cbn [Nat.add] in Hi.
        split; [apply A2, Hi|]. split; [apply A3, Hi|]. split; [intros j lo hi; apply (A4 i j lo hi Hi)|].
        split; [intros g Hg; apply (A5 i g Hi Hg) | intros g Hg; apply (A6 i g Hi Hg)].
      - intros [A1 [A [A7 A8]]]. assert (E : forall i, i < K -> shot_ok i) by (intros i Hi; apply A, in_seq; lia).
        constructor; try assumption.
        + intros el Hel. apply (E el Hel).
        + intros el Hel. apply (E el Hel).
        + intros el j lo hi Hel. apply (E el Hel).
        + intros el g Hel. apply (E el Hel).
        + intros el g Hel. apply (E el Hel).
    Qed.

    (** ** The ends *)

    Lemma zero_rows : forall es out rho, vals out (map (eval F rho) es) ->
        imposes (nlp_equality out) (all_zero F es rho) (length es).
    Proof.
      intros es out rho V. assert (L := vals_length _ _ _ _ V). rewrite map_length in L.
      eapply imposes_iff; [apply (imposes_equality F env _ _ V)| |exact L].
      unfold all_zero. rewrite Forall_map, Forall_forall. reflexivity.
    Qed.

    Lemma sho_initial_imposes : forall x00,
        (match at_index (r_x r) 0 IndexError with Ok l => at_index l 0 IndexError | Raise e => Raise e end) = Ok x00 ->
        imposes (include_initial k x00 (ps_x0 s)) (all_zero F (o_h_initial o) (first_point k h)) (length (o_h_initial o)).
    Proof.
      intros x00 H. assert (H0 : 0 < K) by (pose proof (so_elements _ T); unfold K; lia).
      destruct (state_row 0) as [l [x [F1 [F2 [F3 F4]]]]]; [lia|].
      unfold at_index at 1 in H. rewrite F1 in H. unfold at_index in H. rewrite F2 in H. injection H as <-.
      unfold include_initial. apply imposes_res. intros f Hf. apply imposes_res. intros e He. apply zero_rows.
      assert (Lx : length (h_x h 0) = n_x k) by (apply len_hx; lia). assert (Ly : length (h_y h 0) = n_y k) by (apply len_hy; lia).
      refine (call_blocks F env _ _ _ _ _ _ HF sho_initial_NoDup Hf He _). unfold first_point.
      apply Forall2_cons; [|apply Forall2_cons; [|constructor]].
      - rewrite (of_x _ _ _ _ _ Lx), F3. apply vals_vars.
      - rewrite (of_x0 _ _ _ _ _ H0 Lx Ly), (ds_x0 _ _ _ _ _ D). apply vals_vars.
    Qed.

    Lemma last_state_value : forall x_f,
        (match last_of (r_x r) with
         | Ok l => match at_index l 0 IndexError with Ok v => Ok (map EVar v) | Raise e => Raise e end
         | Raise e => Raise e end) = Ok x_f -> vals x_f (h_x h K).
    Proof.
      intros x_f H. destruct (last_of (r_x r)) as [l|] eqn:El; [|discriminate]. destruct (last_of_ok _ _ _ El) as [l' E].
      destruct (state_row K) as [l2 [x [F1 [F2 [F3 F4]]]]]; [lia|].
      assert (L : length (r_x r) = K + 1) by apply Sh. rewrite E, app_length in L. cbn [length] in L.
      rewrite E, nth_error_app2 in F1 by lia. replace (K - length l') with 0 in F1 by lia. injection F1 as <-.
      unfold at_index in H. rewrite F2 in H. injection H as <-. rewrite F3. apply vals_vars.
    Qed.

    Lemma sho_final_imposes : forall x_f, vals x_f (h_x h K) ->
        imposes (include_final k x_f (r_eta r) (with_p_opt k (ps_p s) r))
          (all_zero F (o_h_final o) (last_point k h) /\ all_zero F (o_h o) (last_point k h))
          (length (o_h_final o) + length (o_h o)).
    Proof.
      intros x_f Vx. assert (Hl : K - 1 < K) by (pose proof (so_elements _ T); unfold K; lia).
      assert (Lx : length (h_x h K) = n_x k) by (apply len_hx; lia). assert (Ly : length (h_y h (K - 1)) = n_y k) by (apply len_hy; lia).
      unfold include_final. apply imposes_res. intros f Hf. apply imposes_res. intros e He.
      apply imposes_seq.
      - apply zero_rows. refine (call_blocks F env _ _ _ _ _ _ HF sho_final_NoDup Hf He _). unfold last_point.
        apply Forall2_cons; [|apply Forall2_cons; [|apply Forall2_cons; [|constructor]]].
        + rewrite (of_x _ _ _ _ _ Lx). exact Vx.
        + rewrite (of_eta _ _ _ _ _ Hl Lx Ly), (ds_eta _ _ _ _ _ D). apply vals_vars.
        + rewrite (of_p _ _ _ _ _ Lx Ly). apply vals_of, sho_p_value.
      - apply imposes_res. intros g Hg. apply imposes_res. intros e' He'.
        apply zero_rows. refine (call_blocks F env _ _ _ _ _ _ HF _ Hg He' _).
        + cbn [concat]. rewrite app_nil_r. apply sho_p_NoDup.
        + unfold last_point. apply Forall2_cons; [|constructor]. rewrite (of_p _ _ _ _ _ Lx Ly). apply vals_of, sho_p_value.
    Qed.

    (** ** The objective *)

    Lemma running_sum : forall w ss sv, o_S o = [w] ->
        res_map (fun z => match last_of (g_f z) with Ok l => last_of l | Raise e => Raise e end) zs = Ok ss ->
        vec_sum ss = Ok sv -> exists x, sv = [x] /\ (eval F env x == running_cost F k h w ends)%Q.
    Proof.
      intros w ss sv ES Hss Hsv. apply (vec_sum_vals F env ss); [|exact Hsv].
      pose proof (res_map_ok _ _ _ _ _ Hss) as R.
      apply Forall2_nth_intro; [rewrite map_length, seq_length, <- (Forall2_len _ _ _ _ _ R); exact Lzs|].
      intros i a b Ha Hb. destruct (Forall2_nth' _ _ _ _ _ _ _ R Ha) as [z [Hz Hl]]. cbn beta in Hl.
      rewrite nth_error_map in Hb. fold K in Hb. destruct (nth_error (seq 0 K) i) as [j|] eqn:Ej; [|discriminate].
      apply nth_seq_inv in Ej. destruct Ej as [Hi ->]. injection Hb as <-.
      destruct (at_element i z Hz) as [_ [xf [zf [vs [-> [_ [_ [_ V]]]]]]]]. cbn [g_f] in Hl.
      unfold groups in V. rewrite app_assoc in V. apply Forall2_app_inv_l in V. destruct V as [v1 [v2 [_ [V ->]]]].
      inversion V as [|es v l1 l2 Hv Hn]; subst. inversion Hn; subst. rewrite map_app in Hl. cbn [map] in Hl.
      unfold last_of in Hl at 1. rewrite rev_app_distr in Hl. cbn in Hl. injection Hl as <-.
      fold o in Hv. rewrite ES in Hv. exact Hv.
    Qed.
    Lemma collected_sum : forall cs c,
        res_map (fun z => match at_index (g_x z) 0 IndexError with
                          | Ok xf => match last_of xf with Ok c => Ok [c] | Raise e => Raise e end
                          | Raise e => Raise e end) zs = Ok cs ->
        vec_sum cs = Ok c -> exists x, c = [x] /\ (eval F env x == collected_cost k ends)%Q.
    Proof.
      intros cs c Hcs Hc. apply (vec_sum_vals F env cs); [|exact Hc].
      pose proof (res_map_ok _ _ _ _ _ Hcs) as R.
      apply Forall2_nth_intro; [rewrite map_length, seq_length, <- (Forall2_len _ _ _ _ _ R); exact Lzs|].
      intros i a b Ha Hb. destruct (Forall2_nth' _ _ _ _ _ _ _ R Ha) as [z [Hz Hl]]. cbn beta in Hl.
      rewrite nth_error_map in Hb. fold K in Hb. destruct (nth_error (seq 0 K) i) as [j|] eqn:Ej; [|discriminate].
      apply nth_seq_inv in Ej. destruct Ej as [Hi ->]. injection Hb as <-.
      destruct (at_element i z Hz) as [_ [xf [zf [vs [-> [Ee _]]]]]]. cbn [g_x at_index nth_error] in Hl.
      destruct (last_of (map EVar xf)) as [x|] eqn:Ex; [|discriminate]. injection Hl as <-.
      destruct (last_of_ok _ _ _ Ex) as [l El]. rewrite Ee. cbn [fst].
      assert (Em : map env xf = map (eval F env) l ++ [eval F env x]) by (rewrite <- (eval_vars F env xf), El, map_app; reflexivity).
      rewrite Em, last_last. constructor; [reflexivity | constructor].
    Qed.

    Lemma shooting_cost_ok : forall x_f cost, vals x_f (h_x h K) -> shooting_cost k x_f (with_p_opt k (ps_p s) r) zs = Ok cost ->
        (k_direct k = true -> k_cost_as_sum k = false -> forall v w, o_V o = [v] -> o_S o = [w] ->
           exists e, cost = [e] /\ (eval F env e == eval F (last_point k h) v + running_cost F k h w ends)%Q) /\
        (k_direct k = true -> k_cost_as_sum k = true -> forall w, o_S o = [w] ->
           exists e, cost = [e] /\ (eval F env e == collected_cost k ends + running_cost F k h w ends)%Q) /\
        (k_direct k = false -> cost = [EConst 0%Q]).
    Proof.
      intros x_f cost Vx H. unfold shooting_cost in H.
      destruct (res_map _ zs) as [ss|] eqn:Ess in H; [|discriminate]. destruct (vec_sum ss) as [sv|] eqn:Esv; [|discriminate].
      split; [|split].
      - intros Hd Hs v w EV ES. rewrite Hd, Hs in H. destruct (running_sum w ss sv ES Ess Esv) as [x [-> Ex]].
        destruct (make_function _ _) as [f|] eqn:Ef; [|discriminate]. destruct (call f _) as [fv|] eqn:Efv; [|discriminate].
        assert (Hl : K - 1 < K) by (pose proof (so_elements _ T); unfold K; lia).
        assert (Lx : length (h_x h K) = n_x k) by (apply len_hx; lia). assert (Ly : length (h_y h (K - 1)) = n_y k) by (apply len_hy; lia).
        assert (Vv : vals fv (map (eval F (last_point k h)) (o_V o))).
        { refine (call_blocks F env _ _ _ _ _ _ HF sho_cost_NoDup Ef Efv _). unfold last_point.
          apply Forall2_cons; [|apply Forall2_cons; [|constructor]].
          - rewrite (of_x _ _ _ _ _ Lx). exact Vx.
          - rewrite (of_p _ _ _ _ _ Lx Ly). apply vals_of, sho_p_value. }
        rewrite EV in Vv. inversion Vv as [|fx v0 l4 l5 Hfx Hn]; subst. inversion Hn; subst.
        injection H as <-. eexists. split; [reflexivity|]. cbn [eval binop_eval fst snd]. rewrite Hfx, Ex. reflexivity.
      - intros Hd Hs w ES. rewrite Hd, Hs in H. destruct (running_sum w ss sv ES Ess Esv) as [x [-> Ex]].
        destruct (res_map _ zs) as [cs|] eqn:Ecs in H; [|discriminate]. destruct (vec_sum cs) as [c|] eqn:Ec; [|discriminate].
        destruct (collected_sum cs c Ecs Ec) as [y [-> Ey]]. injection H as <-. eexists. split; [reflexivity|].
        cbn [eval binop_eval fst snd]. rewrite Ex, Ey. reflexivity.
      - intros Hd. rewrite Hd in H. injection H as <-. reflexivity.
    Qed.
  End Assembly.
End Values.

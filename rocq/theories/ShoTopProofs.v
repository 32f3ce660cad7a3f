(** Proofs about the transcription by multiple shooting: the whole call. *)
From Coq Require Import String Permutation Lqa.
From Verif Require Import Base BaseProofs UtilModel UtilProofs ExprModel ExprProofs NlpModel NlpSpec NlpProofs SysModel
  SysSpec SysProofs SimModel OcpModel OcpSpec OcpMoreProofs LagModel LagSpec LagProofs DiscModel DiscSpec DiscProofs
  ColSpec ColEvalProofs ColProofs ColElementProofs ColIncludeProofs ColAssemblyProofs ColMainProofs ColTopProofs
  ShoModel ShoSpec ShoShotProofs ShoProofs.
Local Open Scope list_scope.
Local Open Scope nat_scope.

Section Top.
  Variables (buildable : optval -> string -> dict string (list expr) -> options -> bool)
    (label : nat -> nat -> string) (defaults : options) (ty : string) (k : method).
  Let m : model := k_model k.
  Let o : ocp := k_problem k.
  Let K : nat := k_elements k.
  Notation disc := (shooting_discretize buildable label defaults ty k).

  Lemma sho_discretize_inv : forall s n0 c0 n1 c1 r shots, well_bounded o -> K <> 0 ->
      disc s (n0, c0) = ((n1, c1), Ok (r, shots)) ->
      let p := with_p_opt k (ps_p s) r in
      let thetas := with_theta_opt k (ps_theta s) r in
      let n := add_variables n0 (flatten r) (map BNum (flatten (lower_bounds k (K + 1) 1 1)))
                 (map BNum (flatten (upper_bounds k (K + 1) 1 1))) in
      shooting_shape k r /\ flatten r = seq c0 (length (flatten r)) /\ length shots = K /\
      concat (map shot_symbols shots) = seq (c0 + length (flatten r)) (length (concat (map shot_symbols shots))) /\
      late (o_when_ineq o) (length (o_g_ineq o)) /\ late (o_when_eq o) (length (o_g_eq o)) /\
      exists zs, length zs = K /\
      (forall el z sh, nth_error zs el = Some z -> nth_error shots el = Some sh -> taken label ty k r p thetas el z sh) /\
      exists x00 x_f cost na ca nb cb nc cc,
        (match at_index (r_x r) 0 IndexError with Ok l => at_index l 0 IndexError | Raise e => Raise e end) = Ok x00 /\
        include_initial k x00 (ps_x0 s) (n, c0 + length (flatten r)) = ((na, c0 + length (flatten r)), Ok tt) /\
        crun (include_shot k r (ps_last_u s) zs) (seq 0 K) (na, ca) = ((nb, cb), Ok tt) /\
        (match last_of (r_x r) with
         | Ok l => match at_index l 0 IndexError with Ok v => Ok (map EVar v) | Raise e => Raise e end
         | Raise e => Raise e end) = Ok x_f /\
        include_final k x_f (r_eta r) p (nb, cb) = ((nc, cc), Ok tt) /\
        shooting_cost k x_f p zs = Ok cost /\ n1 = with_objective nc cost.
  Proof.
    intros s n0 c0 n1 c1 r shots WB HK H. unfold shooting_discretize in H.
    destruct (cbind_inv _ _ _ _ _ _ _ _ H) as [r' [st1 [Hv H1]]]. clear H.
    rewrite shooting_variables_eq in Hv.
    destruct (variables_spec k (k_elements k + 1) 1 1 n0 c0 WB) as [r2 [v [E [Ev [Es Sh]]]]].
    rewrite E in Hv. injection Hv as <- <-. subst v. cbv zeta in H1.
    assert (Eb : match breakpoints k with Ok l => l | Raise _ => [] end = map (fun i => step_size k * q_of_nat i)%Q (seq 0 (K + 1))).
    { unfold breakpoints, delta_t. destruct (Nat.eqb_spec (k_elements k) 0) as [X|_]; [contradiction | reflexivity]. }
    rewrite Eb in H1. clear Eb.
    destruct (cbind_res_inv _ _ _ _ _ _ _ _ H1) as [demands [Hdem H2]]. clear H1.
    destruct (cbind_res_inv _ _ _ _ _ _ _ _ H2) as [x00 [Hx00 H3]]. clear H2.
    destruct (cbind_inv _ _ _ _ _ _ _ _ H3) as [[] [[na ca] [Hini H4]]]. clear H3.
    destruct (cbind_res_inv _ _ _ _ _ _ _ _ H4) as [f_i [Hfi H5]]. clear H4.
    destruct (cbind_res_inv _ _ _ _ _ _ _ _ H5) as [f_e [Hfe H6]]. clear H5.
    destruct (cbind_res_inv _ _ _ _ _ _ _ _ H6) as [f_s [Hfs H7]]. clear H6.
    destruct (cbind_inv _ _ _ _ _ _ _ _ H7) as [[zs shots'] [[na' ca'] [Hsh H8]]]. clear H7. cbn [fst snd] in H8.
    destruct (shoot_elements_inv buildable label defaults ty k r2 _ _ _ _ _ _ _ _ _ _ _ _ Hdem Hfi Hfe Hfs Hsh)
      as [-> [Lz [Ls [HT [Hsym Hlate]]]]].
    destruct (cbind_inv _ _ _ _ _ _ _ _ H8) as [[] [[nb cb] [Hels H9]]]. clear H8.
    destruct (cbind_res_inv _ _ _ _ _ _ _ _ H9) as [x_f [Hxf H10]]. clear H9.
    destruct (cbind_inv _ _ _ _ _ _ _ _ H10) as [[] [[nc cc] [Hfin H11]]]. clear H10.
    destruct (cbind_res_inv _ _ _ _ _ _ _ _ H11) as [cost [Hcost H12]]. clear H11.
    destruct (cbind_inv _ _ _ _ _ _ _ _ H12) as [[] [st2 [Hobj H13]]]. clear H12.
    injection H13 as -> -> ->.
    assert (Eobj : n1 = with_objective nc cost).
    { unfold on_nlp in Hobj. cbn [fst snd] in Hobj. unfold set_objective in Hobj.
      destruct (1 <? length cost) eqn:Elc; [discriminate|]. injection Hobj as <- _. reflexivity. }
    assert (Eca : ca = c0 + length (flatten r)).
    { clear -Hini. unfold include_initial in Hini. destruct (cbind_res_inv _ _ _ _ _ _ _ _ Hini) as [f [_ H1]].
      destruct (cbind_res_inv _ _ _ _ _ _ _ _ H1) as [e [_ H2]]. unfold nlp_equality, on_nlp in H2. cbn [fst snd] in H2.
      destruct (NlpModel.include_equality _ _ _ _) as [n' [u|e']]; [injection H2 as _ <-; reflexivity | discriminate]. }
    subst ca. cbv zeta. split; [exact Sh|]. split; [exact Es|]. split; [exact Ls|]. split; [exact Hsym|].
    destruct (Hlate HK) as [La1 La2]. split; [exact La1|]. split; [exact La2|]. exists zs. split; [exact Lz|]. split; [exact HT|].
    exists x00, x_f, cost, na, ca', nb, cb, nc, cc. split; [exact Hx00|]. split; [exact Hini|]. split; [exact Hels|].
    split; [exact Hxf|]. split; [exact Hfin|]. split; [exact Hcost | exact Eobj].
  Qed.

  (** The symbols of the shots have the values [ends]. *)
  Definition reaches (env : sym -> Q) (shots : list shot) (ends : nat -> list Q * list Q) : Prop :=
    forall el sh, nth_error shots el = Some sh -> ends el = (map env (sh_xf sh), map env (sh_zf sh)).

  Lemma sho_discretize_ok : forall F s n0 c0 n1 c1 r shots, respects F -> shootable k ->
      length (ps_p s) = n_p k -> rows (k_elements k) (n_theta k) (ps_theta s) -> length (ps_x0 s) = n_x k ->
      disc s (n0, c0) = ((n1, c1), Ok (r, shots)) ->
      let n := add_variables n0 (flatten r) (map BNum (flatten (lower_bounds k (K + 1) 1 1)))
                 (map BNum (flatten (upper_bounds k (K + 1) 1 1))) in
      forall env h ends, describes_shooting k env s r h -> reaches env shots ends -> exists l cost,
        n1 = with_objective (add_rows n l) cost /\ (Forall (row_ok F env) l <-> shot_through F k h ends) /\
        length l = shooting_constraints k /\
        (k_direct k = true -> k_cost_as_sum k = false -> forall v w, o_V o = [v] -> o_S o = [w] ->
           exists e, cost = [e] /\ (eval F env e == eval F (last_point k h) v + running_cost F k h w ends)%Q) /\
        (k_direct k = true -> k_cost_as_sum k = true -> forall w, o_S o = [w] ->
           exists e, cost = [e] /\ (eval F env e == collected_cost k ends + running_cost F k h w ends)%Q) /\
        (k_direct k = false -> cost = [EConst 0%Q]).
  Proof.
    intros F s n0 c0 n1 c1 r shots HF T Hp Hth Hx0 H n env h ends D HE.
    destruct (sho_discretize_inv s n0 c0 n1 c1 r shots (so_bounds _ T) (so_elements _ T) H) as
      [Sh [Ef [Ls [Hsym [_ [_ [zs [Lz [HT [x00 [x_f [cost [na [ca [nb [cb [nc [cc [Hx00 [Hini [Hels [Hxf [Hfin [Hcost Eobj]]]]]]]]]]]]]]]]]]]]]]]].
    fold n in Hini.
    destruct (sho_initial_imposes F k env s r h HF T Sh D Hp Hth Hx0 zs shots Lz Ls x00 Hx00 _ _ _ _ Hini) as [_ [l1 [-> [C1 L1]]]].
    assert (I2 : forall i, In i (seq 0 K) -> imposes F env (include_shot k r (ps_last_u s) zs i) (shot_ok F k h ends i) (shot_rows k)).
    { intros i Hi. apply in_seq in Hi. destruct Hi as [_ Hi].
      exact (include_shot_imposes F k env s r h HF T Sh D Hp Hth Hx0 ty label zs shots Lz Ls HT ends HE i Hi). }
    destruct (imposes_run F env _ _ (shot_ok F k h ends) (fun _ => shot_rows k) (seq 0 K) I2 _ _ _ _ Hels) as [-> [l2 [-> [C2 L2]]]].
    assert (Vf := last_state_value F k env s r h Sh D Hp Hx0 zs shots Lz Ls x_f Hxf).
    destruct (sho_final_imposes F k env s r h HF T Sh D Hp Hth Hx0 zs shots Lz Ls x_f Vf _ _ _ _ Hfin) as [-> [l3 [-> [C3 L3]]]].
    exists (l1 ++ (l2 ++ l3)), cost. rewrite Eobj, !add_rows_app.
    split; [reflexivity|]. split; [|split].
    - rewrite (shot_through_elements F k s h Hp Hx0 zs shots Lz Ls ends), !Forall_app, C1, C2, C3. reflexivity.
    - rewrite !app_length, L1, L2, L3, list_sum_const, seq_length. unfold shooting_constraints, shot_rows. fold m o K. unfold n_x, n_y. fold m. lia.
    - exact (shooting_cost_ok F k env s r h HF T Sh D Hp Hth Hx0 ty label zs shots Lz Ls HT ends HE x_f cost Vf Hcost).
  Qed.

  Section Call.
    Variables (c : nat) (n : nlp) (s : par_syms) (r : traj sym) (shots : list shot).
    Hypothesis T : shootable k.
    Hypothesis H : create_optimization_problem disc k c = Ok (n, s, (r, shots)).

    Lemma sho_sizes : s = parameter_symbols k c /\ length (ps_p s) = n_p k /\ rows (k_elements k) (n_theta k) (ps_theta s) /\ length (ps_x0 s) = n_x k.
    Proof.
      destruct (create_inv _ _ _ _ _ _ _ H) as [Es _]. split; [exact Es|]. destruct (parameter_lengths k c) as [Hp Hx0]. rewrite <- Es in Hp, Hx0.
      split; [exact Hp|]. split; [rewrite Es; apply theta_syms_rows | exact Hx0].
    Qed.
    Lemma sho_layout : shooting_shape k r /\ flatten r = seq (c + length (all_mx s)) (length (flatten r)) /\ length shots = K /\
        concat (map shot_symbols shots) = seq (c + length (all_mx s) + length (flatten r)) (length (concat (map shot_symbols shots))) /\
        late (o_when_ineq o) (length (o_g_ineq o)) /\ late (o_when_eq o) (length (o_g_eq o)) /\
        (forall el sh, nth_error shots el = Some sh -> exists z, taken label ty k r (with_p_opt k (ps_p s) r) (with_theta_opt k (ps_theta s) r) el z sh).
    Proof.
      destruct (create_inv _ _ _ _ _ _ _ H) as [_ [n0 [c0 [Hd _]]]].
      destruct (sho_discretize_inv s _ _ _ _ _ _ (so_bounds _ T) (so_elements _ T) Hd) as [Sh [Ef [Ls [Hsym [L1 [L2 [zs [Lz [HT _]]]]]]]]].
      split; [exact Sh|]. split; [exact Ef|]. split; [exact Ls|]. split; [exact Hsym|]. split; [exact L1|]. split; [exact L2|].
      intros el sh Hsh. destruct (nth_error zs el) as [z|] eqn:Ez; [exists z; apply HT; assumption|].
      apply nth_error_None in Ez. assert (el < length shots) by (apply nth_error_Some; congruence). lia.
    Qed.

    (** Simulations and shots. *)
    Section Env.
      Variables (F : nat -> Q -> Q) (integrate : icall -> res (list Q * list Q)) (env : sym -> Q) (h : shooting).
      Hypothesis HF : respects F.
      Hypothesis D : describes_shooting k env s r h.

      Lemma shot_is_simulation : forall el sh, nth_error shots el = Some sh ->
          dae_simulate integrate defaults (sh_dae sh) (map (eval F env) (sh_x0 sh)) (sh_tf sh) (sh_t0 sh)
            (map (eval F env) (sh_p sh)) (sh_y0 sh) (sh_type sh) (sh_user sh) = simulation integrate defaults ty label k h el.
      Proof.
        intros el sh Hsh. destruct sho_sizes as [_ [Hp [Hth Hx0]]]. destruct sho_layout as [Sh [_ [Ls [_ [_ [_ HT]]]]]].
        destruct (HT el sh Hsh) as [z Tk].
        assert (Hel : el < k_elements k) by (fold K; rewrite <- Ls; apply nth_error_Some; congruence).
        exact (shot_simulation F k env s r h T Sh D Hp Hth Hx0 integrate defaults ty label el z sh Hel Tk).
      Qed.
      Lemma reaches_of_simulated : forall ends, computed F integrate defaults env shots ->
          simulated integrate defaults ty label k h ends -> reaches env shots ends.
      Proof.
        intros ends C S el sh Hsh. unfold computed in C. rewrite Forall_forall in C. specialize (C sh (nth_error_In _ _ Hsh)).
        rewrite (shot_is_simulation el sh Hsh) in C. destruct sho_layout as [_ [_ [Ls _]]].
        rewrite S in C by (fold K; rewrite <- Ls; apply nth_error_Some; congruence). injection C as ->. reflexivity.
      Qed.
      Lemma simulated_exists : computed F integrate defaults env shots ->
          exists ends, simulated integrate defaults ty label k h ends.
      Proof.
        intros C. destruct sho_layout as [_ [_ [Ls _]]]. unfold computed in C. rewrite Forall_forall in C.
        apply (finite_choice _ ([], []) (fun el e => simulation integrate defaults ty label k h el = Ok e)).
        intros el Hel. destruct (nth_error shots el) as [sh|] eqn:Es; [|apply nth_error_None in Es; fold K in Hel; lia].
        eexists. rewrite <- (shot_is_simulation el sh Es). apply C, (nth_error_In _ _ Es).
      Qed.

      Lemma shooting_transcription : forall ends, computed F integrate defaults env shots ->
          simulated integrate defaults ty label k h ends ->
          (feasible F env n <-> bounded k env r /\ shot_through F k h ends) /\
          length (ng n) = shooting_constraints k /\
          (k_direct k = true -> k_cost_as_sum k = false -> forall v w, o_V o = [v] -> o_S o = [w] ->
             exists e, nf n = [e] /\ (eval F env e == eval F (last_point k h) v + running_cost F k h w ends)%Q) /\
          (k_direct k = true -> k_cost_as_sum k = true -> forall w, o_S o = [w] ->
             exists e, nf n = [e] /\ (eval F env e == collected_cost k ends + running_cost F k h w ends)%Q) /\
          (k_direct k = false -> nf n = [EConst 0%Q]).
      Proof.
        intros ends C S. pose proof (reaches_of_simulated ends C S) as HE.
        destruct sho_sizes as [_ [Hp [Hth Hx0]]]. destruct sho_layout as [Sh [_ [Ls [_ [_ [_ HT]]]]]].
        destruct (create_inv _ _ _ _ _ _ _ H) as [_ [n0 [c0 [Hd [N1 [N2 [N3 [N4 [N5 [N6 N7]]]]]]]]]].
        destruct (sho_discretize_ok F s _ _ _ _ _ _ HF T Hp Hth Hx0 Hd env h ends D HE) as [l [cost [E [Cl [L W]]]]].
        assert (Ff : feasible F env n <-> feasible F env n0) by (unfold feasible; rewrite N1, N2, N3, N4, N5, N6; reflexivity).
        split; [|split].
        - rewrite Ff, E. unfold with_objective.
          set (base := add_variables nlp_init _ _ _) in *.
          transitivity (feasible F env (add_rows base l)); [reflexivity|].
          rewrite feasible_add_rows by reflexivity. rewrite Cl.
          assert (B : feasible F env base <-> bounded k env r).
          { rewrite <- (bounds_iff F env k _ _ _ r (so_bounds _ T) Sh). unfold feasible, base, add_variables, nlp_init. cbn.
            split; [intros [A _]; exact A|]. intros A. split; [exact A|]. intros i a b d Ha. destruct i; discriminate. }
          rewrite B. reflexivity.
        - rewrite N4, E. unfold with_objective. cbn [ng]. unfold add_rows. cbn [ng]. rewrite app_length, map_length, L. reflexivity.
        - rewrite N7, E. exact W.
      Qed.
    End Env.

    (** Every point has its description. *)
    Lemma description_exists : forall env, exists h, describes_shooting k env s r h.
    Proof.
      intros env. destruct sho_sizes as [Es [Hp [Hth Hx0]]]. destruct sho_layout as [[Gx [Gy [Gu [He [Hpo Gt]]]]] _].
      destruct (so_own _ T) as [[O1 O2] [N1 N2]].
      pose (at_row := fun (l : list (list (list sym))) el => match nth_error l el with Some l => map env (concat l) | None => [] end).
      exists (mkShooting (at_row (r_x r)) (at_row (r_y r)) (at_row (r_u r))
        (map (eval (fun _ x => x) env) (put_values (map EVar (ps_p s)) (get_p_opt_indices (k_problem k)) (map EVar (r_p r))))
        (fun el => match nth_error (ps_theta s) el, nth_error (r_theta r) el with
                   | Some g, Some d => map (eval (fun _ x => x) env) (put_values (map EVar g) (get_theta_opt_indices (k_problem k)) (map EVar d))
                   | _, _ => []
                   end)
        (map env (r_eta r)) (map env (ps_x0 s)) (map env (ps_last_u s))).
      constructor; cbn [h_x h_y h_u h_p h_theta h_eta h_x0 h_last_u]; try reflexivity.
      - intros el l E. unfold at_row. rewrite E. reflexivity.
      - intros el l E. unfold at_row. rewrite E. reflexivity.
      - intros el l E. unfold at_row. rewrite E. reflexivity.
      - apply chosen_exists; [apply (sho_p_NoDup k T) | exact N1 | | exact Hp | exact Hpo].
        apply (opt_indices (k_problem k) O1), (sho_p_NoDup k T).
      - intros el g d Eg Ed. rewrite Eg, Ed. destruct Hth as [_ R1]. destruct Gt as [_ R2]. rewrite Forall_forall in R1, R2.
        apply chosen_exists; [apply (sho_theta_NoDup k T) | exact N2 | | apply R1, (nth_error_In _ _ Eg) | apply R2, (nth_error_In _ _ Ed)].
        apply (opt_theta_indices (k_problem k) O2), (sho_theta_NoDup k T).
    Qed.

    Lemma single_table : forall n0 d (f : nat -> list Q) env (l : list (list (list sym))) el w,
        (forall i, length (f i) = d) -> map (map (map env)) l = table n0 1 d (fun e _ i => nth i (f e) 0%Q) ->
        nth_error l el = Some w -> f el = map env (concat w).
    Proof.
      intros n0 d f env l el w L E Hw.
      assert (Hm : nth_error (map (map (map env)) l) el = Some (map (map env) w)) by (rewrite nth_error_map, Hw; reflexivity).
      rewrite E in Hm. unfold table in Hm. rewrite nth_error_map in Hm.
      destruct (nth_error (seq 0 n0) el) as [a|] eqn:Ea; [|discriminate]. apply nth_seq_inv in Ea. destruct Ea as [_ ->]. injection Hm as Hm.
      rewrite map_concat_rows, <- Hm. cbn [concat]. rewrite app_nil_r.
      pose proof (concat_chunks _ 0%Q 1 d (f el)) as C. cbn [seq map concat Nat.mul Nat.add] in C. rewrite app_nil_r in C. symmetry. apply C.
      rewrite L. lia.
    Qed.

    (** Every sized shooting with its simulations has a point. *)
    Lemma shooting_point_exists : forall F integrate h ends, respects F ->
        sized_shooting k h ends -> simulated integrate defaults ty label k h ends ->
        exists env, describes_shooting k env s r h /\ computed F integrate defaults env shots.
    Proof.
      intros F integrate h ends HF Z S. destruct sho_sizes as [Es [Hp [Hth Hx0]]].
      destruct sho_layout as [Sh [Ef [Ls [Hsym [_ [_ HT]]]]]].
      set (rq := mkTraj (table (K + 1) 1 (n_x k) (fun el _ i => nth i (h_x h el) 0%Q))
                    (table K 1 (n_y k) (fun el _ i => nth i (h_y h el) 0%Q))
                    (table K (control_count k) (n_u k) (fun el j i => nth (j * n_u k + i) (h_u h el) 0%Q))
                    (h_eta h) (map (value_in (m_p (k_model k)) (h_p h)) (o_p_opt (k_problem k)))
                    (map (fun el => map (value_in (m_theta (k_model k)) (h_theta h el)) (o_theta_opt (k_problem k))) (seq 0 K))).
      assert (Sq : shooting_shape k rq).
      { unfold shooting_shape, shaped, rq. cbn [r_x r_y r_u r_eta r_p r_theta]. rewrite map_length.
        split; [apply table_grid|]. split; [apply table_grid|]. split; [apply table_grid|].
        split; [apply (ss_eta _ _ _ Z)|]. split; [reflexivity|]. split; [rewrite map_length, seq_length; reflexivity|].
        apply Forall_map, Forall_forall. intros el _. apply map_length. }
      set (pv := h_p h ++ concat (map (h_theta h) (seq 0 K)) ++ h_x0 h ++ h_last_u h).
      assert (Rt : rows K (n_theta k) (map (h_theta h) (seq 0 K))).
      { split; [rewrite map_length, seq_length; reflexivity|]. apply Forall_map, Forall_forall. intros el _. apply (ss_theta _ _ _ Z). }
      assert (Lpv : length (all_mx s) = length pv).
      { rewrite Es, all_mx_seq, seq_length. unfold pv. rewrite !app_length, (rows_concat_length _ _ _ _ Rt), (ss_p _ _ _ Z), (ss_x0 _ _ _ Z), (ss_last_u _ _ _ Z).
        unfold n_p, n_x, n_u. fold K. lia. }
      set (ev := concat (map (fun el => fst (ends el) ++ snd (ends el)) (seq 0 K))).
      assert (Lsz : forall el sh, nth_error shots el = Some sh -> length (sh_xf sh) = n_x k /\ length (sh_zf sh) = n_y k).
      { intros el sh Hsh. destruct (HT el sh Hsh) as [z Tk].
        exact (shot_sizes k s r T ty label el z sh Tk). }
      assert (Lev : length (concat (map shot_symbols shots)) = length ev).
      { rewrite (rows_concat_length _ K (n_x k + n_y k) (map shot_symbols shots)).
        - unfold ev. rewrite (rows_concat_length _ K (n_x k + n_y k)); [reflexivity|]. split; [rewrite map_length, seq_length; reflexivity|].
          apply Forall_map, Forall_forall. intros el _. rewrite app_length. destruct (ss_ends _ _ _ Z el) as [-> ->]. reflexivity.
        - split; [rewrite map_length; exact Ls|]. apply Forall_map, Forall_forall. intros sh Hsh. apply In_nth_error in Hsh. destruct Hsh as [el Hel].
          unfold shot_symbols. rewrite app_length. destruct (Lsz el sh Hel) as [-> ->]. reflexivity. }
      assert (L2 : length (flatten r) = length (flatten rq)) by (rewrite (flatten_length _ _ _ _ _ _ Sh), (flatten_length _ _ _ _ _ _ Sq); reflexivity).
      assert (N : NoDup (all_mx s ++ flatten r ++ concat (map shot_symbols shots))).
      { assert (Ea : all_mx s = seq c (length (all_mx s))) by (rewrite Es, all_mx_seq, seq_length; reflexivity).
        rewrite Hsym, Ef, seq_length. rewrite <- (seq_app (length (flatten r))). rewrite Ea at 1. rewrite <- seq_app. apply seq_NoDup. }
      set (env := assign (fun _ => 0%Q) (all_mx s ++ flatten r ++ concat (map shot_symbols shots)) (pv ++ flatten rq ++ ev)).
      assert (E : map env (all_mx s ++ flatten r ++ concat (map shot_symbols shots)) = pv ++ flatten rq ++ ev).
      { apply assign_map; [exact N | rewrite !app_length; lia]. }
      rewrite !map_app in E. apply app_inj_len in E; [|rewrite map_length; exact Lpv]. destruct E as [E1 E2].
      apply app_inj_len in E2; [|rewrite map_length; exact L2]. destruct E2 as [E2 E3].
      rewrite <- flatten_map in E2. apply (flatten_inj _ k _ _ _ _ _ (shaped_map _ _ env _ _ _ _ _ Sh) Sq) in E2.
      rewrite Es in E1. destruct (parameters_read k c (h_p h) (map (h_theta h) (seq 0 K)) (h_x0 h) (h_last_u h) env (ss_p _ _ _ Z) Rt (ss_x0 _ _ _ Z) (ss_last_u _ _ _ Z) E1)
        as [R1 [R2 [R3 R4]]]. cbn [pv_p pv_theta pv_x0 pv_last_u] in R1, R2, R3, R4. rewrite <- Es in R1, R2, R3, R4.
      assert (Ex : map (map (map env)) (r_x r) = r_x rq) by (rewrite <- E2; reflexivity).
      assert (Ey : map (map (map env)) (r_y r) = r_y rq) by (rewrite <- E2; reflexivity).
      assert (Eu : map (map (map env)) (r_u r) = r_u rq) by (rewrite <- E2; reflexivity).
      assert (Ee : map env (r_eta r) = r_eta rq) by (rewrite <- E2; reflexivity).
      assert (Ep : map env (r_p r) = r_p rq) by (rewrite <- E2; reflexivity).
      assert (Et : map (map env) (r_theta r) = r_theta rq) by (rewrite <- E2; reflexivity).
      assert (D : describes_shooting k env s r h).
      { constructor.
        - intros el l Hl. apply (single_table (K + 1) (n_x k) (h_x h) env (r_x r) el l); [apply (ss_x _ _ _ Z) | exact Ex | exact Hl].
        - intros el l Hl. apply (single_table K (n_y k) (h_y h) env (r_y r) el l); [apply (ss_y _ _ _ Z) | exact Ey | exact Hl].
        - intros el l Hl. assert (Hm : nth_error (map (map (map env)) (r_u r)) el = Some (map (map env) l)) by (rewrite nth_error_map, Hl; reflexivity).
          rewrite Eu in Hm. unfold rq, table in Hm. cbn [r_u] in Hm. rewrite nth_error_map in Hm.
          destruct (nth_error (seq 0 K) el) as [a|] eqn:Ea; [|discriminate]. apply nth_seq_inv in Ea. destruct Ea as [_ ->]. injection Hm as Hm.
          rewrite map_concat_rows, <- Hm. symmetry. apply concat_chunks. rewrite (ss_u _ _ _ Z). apply (so_controls _ T).
        - rewrite R1, Ep. unfold rq. cbn [r_p]. apply chosen_by_value; [apply (sho_p_NoDup k T) | apply (ss_p _ _ _ Z)].
        - intros el g d Hg Hd.
          assert (Eg : map env g = h_theta h el).
          { assert (Hm : nth_error (map (map env) (ps_theta s)) el = Some (map env g)) by (rewrite nth_error_map, Hg; reflexivity).
            rewrite R2, nth_error_map in Hm. destruct (nth_error (seq 0 K) el) as [a|] eqn:Ea; [|discriminate].
            apply nth_seq_inv in Ea. destruct Ea as [_ ->]. injection Hm as <-. reflexivity. }
          assert (Ed : map env d = map (value_in (m_theta (k_model k)) (h_theta h el)) (o_theta_opt (k_problem k))).
          { assert (Hm : nth_error (map (map env) (r_theta r)) el = Some (map env d)) by (rewrite nth_error_map, Hd; reflexivity).
            rewrite Et in Hm. unfold rq in Hm. cbn [r_theta] in Hm. rewrite nth_error_map in Hm.
            destruct (nth_error (seq 0 K) el) as [a|] eqn:Ea; [|discriminate]. apply nth_seq_inv in Ea. destruct Ea as [_ ->].
            injection Hm as <-. reflexivity. }
          rewrite Eg, Ed. apply chosen_by_value; [apply (sho_theta_NoDup k T) | apply (ss_theta _ _ _ Z)].
        - symmetry. exact Ee.
        - symmetry. exact R3.
        - symmetry. exact R4. }
      exists env. split; [exact D|]. unfold computed. apply Forall_forall. intros sh Hsh. apply In_nth_error in Hsh. destruct Hsh as [el Hel].
      assert (HelK : el < K) by (rewrite <- Ls; apply nth_error_Some; congruence).
      rewrite (shot_is_simulation F integrate env h D el sh Hel), (S el HelK).
      (* the values of the shot *)
      assert (V : map env (shot_symbols sh) = fst (ends el) ++ snd (ends el)).
      { rewrite concat_map, map_map in E3. unfold ev in E3.
        assert (X : map (fun sh => map env (shot_symbols sh)) shots = map (fun el => fst (ends el) ++ snd (ends el)) (seq 0 K)).
        { apply (rows_concat_inj _ K (n_x k + n_y k)); [| |exact E3].
          - split; [rewrite map_length; exact Ls|]. apply Forall_map, Forall_forall. intros sh' Hs. apply In_nth_error in Hs. destruct Hs as [el' Hs].
            rewrite map_length. unfold shot_symbols. rewrite app_length. destruct (Lsz el' sh' Hs) as [-> ->]. reflexivity.
          - split; [rewrite map_length, seq_length; reflexivity|]. apply Forall_map, Forall_forall. intros el' _. rewrite app_length.
            destruct (ss_ends _ _ _ Z el') as [-> ->]. reflexivity. }
        assert (Y : nth_error (map (fun sh => map env (shot_symbols sh)) shots) el = Some (map env (shot_symbols sh))) by (rewrite nth_error_map, Hel; reflexivity).
        rewrite X, nth_error_map, (nth_seq _ _ HelK) in Y. injection Y as <-. reflexivity. }
      unfold shot_symbols in V. rewrite map_app in V. apply app_inj_len in V.
      - destruct V as [-> ->]. destruct (ends el); reflexivity.
      - rewrite map_length. destruct (Lsz el sh Hel) as [-> _]. symmetry. apply (ss_ends _ _ _ Z el).
    Qed.
  End Call.
End Top.

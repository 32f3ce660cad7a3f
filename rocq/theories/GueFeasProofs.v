(** Proofs about initial guesses by simulation for multiple shooting: the simulated guess
    satisfies the constraints that join the elements. *)
From Coq Require Import String Lqa.
From Verif Require Import Base BaseProofs UtilModel UtilProofs ExprModel ExprProofs NlpModel NlpSpec NlpProofs SysModel
  SysSpec SysProofs SimModel OcpModel OcpSpec OcpMoreProofs LagModel LagSpec LagProofs DiscModel DiscSpec DiscProofs
  ColSpec ColEvalProofs ColProofs ColElementProofs ColIncludeProofs ColAssemblyProofs ColMainProofs ColTopProofs
  ShoModel ShoSpec ShoShotProofs ShoProofs ShoTopProofs ShoMoreProofs GueModel GueSpec GueProofs.
Local Open Scope list_scope.
Local Open Scope nat_scope.

Lemma name_does_not_matter : forall integrate defaults d x t_f t_0 p y0 ty l, nameless integrate ->
    dae_simulate integrate defaults d x t_f t_0 p y0 ty [("name"%string, l)] =
    dae_simulate integrate defaults d x t_f t_0 p y0 ty [].
Proof.
  intros integrate defaults d x t_f t_0 p y0 ty l N. unfold dae_simulate.
  destruct (Qeq_bool t_f t_0); [reflexivity|].
  destruct (match d_tau d with Some tau => dae_depends_on d [tau] | None => false end); [reflexivity|].
  unfold simulation_options, integrator_options. cbn [dupdate fold_left dset fst snd String.eqb Ascii.eqb Bool.eqb filter negb dget].
  destruct (select_plugin d ty) as [plugin|e]; [|reflexivity].
  match goal with |- integrate (mkIcall ?a ?b ?c ?d ?e ?f ?g) = integrate (mkIcall ?a' _ _ _ _ _ _) =>
    exact (N (mkIcall a' b c d e f g) a) end.
Qed.

Lemma Forall2_Qeq_refl : forall l, Forall2 Qeq l l.
Proof. induction l; constructor; [apply Qeq_refl | assumption]. Qed.

Lemma nth_table : forall K n f el w env (l : list (list (list sym))), map (map (map env)) l = table K n f ->
    nth_error l el = Some w -> map env (concat w) = concat (map (f el) (seq 0 n)).
Proof.
  intros K n f el w env l E Hw.
  assert (Hm : nth_error (map (map (map env)) l) el = Some (map (map env) w)) by (rewrite nth_error_map, Hw; reflexivity).
  rewrite E in Hm. unfold table in Hm. rewrite nth_error_map in Hm.
  destruct (nth_error (seq 0 K) el) as [a|] eqn:Ea; [|discriminate]. apply nth_seq_inv in Ea. destruct Ea as [_ ->]. injection Hm as Hm.
  rewrite map_concat_rows, <- Hm. reflexivity.
Qed.

Lemma w_C79_shooting_start : forall buildable label defaults integrate k c n s r shots p theta a g,
    shootable k -> k_cost_as_sum k = false -> k_x0_par k = true -> nameless integrate ->
    (forall call xf zf, integrate call = Ok (xf, zf) -> length xf = n_x k /\ length zf = n_y k) ->
    create_optimization_problem (shooting_discretize buildable label defaults "implicit" k) k c = Ok (n, s, (r, shots)) ->
    solver_guess (shooting_sim_guess integrate defaults None None k) (shooting_guess k) k "simulation" None None None p theta None = Ok (a, g) ->
    guessable k None (a_p a) (a_theta a) -> (forall lu, o_last_u (k_problem k) = Some lu -> length lu = n_u k) ->
    forall F env, respects F -> map env (NlpModel.nx n) = g -> map env (all_mx s) = a_par a ->
      computed F integrate defaults env shots ->
      exists h ends, describes_shooting k env s r h /\ simulated integrate defaults "implicit" label k h ends /\
        h_x h 0 = o_x_0 (k_problem k) /\
        (forall el, el < k_elements k -> h_x h (S el) = fst (ends el) /\ h_y h el = snd (ends el)) /\
        (starts_at_initial k -> all_zero F (o_h_initial (k_problem k)) (first_point k h)) /\
        (feasible F env n <-> bounded k env r /\ remaining F k h ends).
Proof.
  intros buildable label defaults integrate k c n s r shots p theta a g T Hsum Hx0p Nm Sz H Hg G Hlu F env HF En Es C.
  unfold solver_guess in Hg. apply bind_inv in Hg. destruct Hg as [a' [Ha Hg]]. apply bind_inv in Hg. destruct Hg as [g' [Hg E]].
  cbn [String.eqb Ascii.eqb Bool.eqb] in Hg. assert (a' = a) by congruence. assert (g' = g) by congruence. subst a' g'. clear E.
  destruct (call_args_given _ _ _ _ _ _ Ha) as [_ [Ex0 _]].
  assert (Hth : forall el v, el < k_elements k -> dget Nat.eqb el (a_theta a) = Some v -> length v = n_theta k) by apply (gb_theta _ _ _ _ G).
  destruct (call_args_read k c None p theta None a Ha Hx0p (fun _ => eq_refl) (gb_p _ _ _ _ G) Hth Hlu) as [ths [lu [Ht [_ [_ [_ R]]]]]].
  destruct (sho_sizes buildable label defaults "implicit" k c n s r shots H) as [Eps [Hp [Hths Hlx0]]].
  destruct (sho_layout buildable label defaults "implicit" k c n s r shots T H) as [Sh _].
  rewrite <- Eps in R. specialize (R env Es). destruct R as [R1 [R2 [R3 R4]]]. cbn [pv_p pv_theta pv_x0 pv_last_u] in R1, R2, R3, R4.
  rewrite Ex0 in R3. cbv match in R3.
  destruct (w_C79_shooting integrate defaults None None k None (a_p a) (a_theta a) g G Hg) as [x [y [th [Rt [Rr [Eg [X0 Sr]]]]]]].
  set (K := k_elements k) in *. set (cc := concat (repeat (guessed_control k None) (control_count k))) in *.
  set (rq := guess_point k (table (K + 1) 1 (fun el _ => x el)) (table K 1 (fun el _ => y el)) (guessed_control k None) (a_p a) th) in *.
  assert (Sq : shooting_shape k rq).
  { apply Sr. intros el j x' z [b [w [_ [Hs Hw]]]]. cbn [transformed] in Hw. subst z.
    unfold dae_simulate in Hs. destruct (Qeq_bool (sa_tf b) (sa_t0 b)); [discriminate|].
    match type of Hs with (if ?q then _ else _) = _ => destruct q; [discriminate|] end.
    unfold integrator_options in Hs. match type of Hs with match ?q with _ => _ end = _ => destruct q; [|discriminate] end.
    destruct w as [xf zf]. exact (Sz _ xf zf Hs). }
  destruct (w_C66_problem buildable label defaults "implicit" k c n s r shots T H) as [Enx _]. rewrite Enx in En.
  rewrite Eg, <- flatten_map in En. apply (flatten_inj _ k _ _ _ _ _ (shaped_map _ _ env _ _ _ _ _ Sh) Sq) in En.
  assert (Ex : map (map (map env)) (r_x r) = r_x rq) by (rewrite <- En; reflexivity).
  assert (Ey : map (map (map env)) (r_y r) = r_y rq) by (rewrite <- En; reflexivity).
  assert (Eu : map (map (map env)) (r_u r) = r_u rq) by (rewrite <- En; reflexivity).
  assert (Ee : map env (r_eta r) = r_eta rq) by (rewrite <- En; reflexivity).
  assert (Ep : map env (r_p r) = r_p rq) by (rewrite <- En; reflexivity).
  assert (Et : map (map env) (r_theta r) = r_theta rq) by (rewrite <- En; reflexivity).
  assert (Eth : forall el, el < K -> nth_error ths el = Some (th el)).
  { intros el Hel. destruct Ht as [Lt Ht]. destruct (nth_error ths el) as [v|] eqn:Ev.
    - apply Ht in Ev. rewrite (Rt el Hel) in Ev. congruence.
    - apply nth_error_None in Ev. unfold K in Hel. lia. }
  set (h := mkShooting x y (fun _ => cc) (a_p a) th (map env (r_eta r)) (o_x_0 (k_problem k)) lu).
  assert (D : describes_shooting k env s r h).
  { constructor; cbn [h h_x h_y h_u h_p h_theta h_eta h_x0 h_last_u].
    - intros el l Hl. rewrite (nth_table (K + 1) 1 (fun el _ => x el) el l env (r_x r) Ex Hl). cbn [seq map concat]. symmetry. apply app_nil_r.
    - intros el l Hl. rewrite (nth_table K 1 (fun el _ => y el) el l env (r_y r) Ey Hl). cbn [seq map concat]. symmetry. apply app_nil_r.
    - intros el l Hl. assert (Hm : nth_error (map (map (map env)) (r_u r)) el = Some (map (map env) l)) by (rewrite nth_error_map, Hl; reflexivity).
      rewrite Eu in Hm. unfold rq, guess_point in Hm. cbn [r_u] in Hm. apply nth_error_In in Hm. apply repeat_spec in Hm.
      rewrite map_concat_rows, Hm. reflexivity.
    - rewrite R1, Ep. unfold rq, guess_point. cbn [r_p]. apply chosen_by_value; [apply (sho_p_NoDup k T) | apply (gb_p _ _ _ _ G)].
    - intros el gv d Hgv Hd.
      assert (Hel : el < K).
      { destruct Hths as [L _]. rewrite <- L. apply nth_error_Some. congruence. }
      assert (Egv : map env gv = th el).
      { assert (Hm : nth_error (map (map env) (ps_theta s)) el = Some (map env gv)) by (rewrite nth_error_map, Hgv; reflexivity).
        rewrite R2, (Eth el Hel) in Hm. congruence. }
      assert (Ed : map env d = map (value_in (m_theta (k_model k)) (th el)) (o_theta_opt (k_problem k))).
      { assert (Hm : nth_error (map (map env) (r_theta r)) el = Some (map env d)) by (rewrite nth_error_map, Hd; reflexivity).
        rewrite Et in Hm. unfold rq, guess_point in Hm. cbn [r_theta] in Hm. rewrite nth_error_map in Hm.
        destruct (nth_error (seq 0 (k_elements k)) el) as [b|] eqn:Ea; [|discriminate]. apply nth_seq_inv in Ea. destruct Ea as [_ ->].
        injection Hm as <-. reflexivity. }
      rewrite Egv, Ed. apply chosen_by_value; [apply (sho_theta_NoDup k T)|]. apply (Hth el (th el) Hel (Rt el Hel)).
    - reflexivity.
    - symmetry. exact R3.
    - symmetry. exact R4. }
  set (ends := fun el => (x (S el), y el)).
  assert (S : simulated integrate defaults "implicit" label k h ends).
  { intros el Hel. unfold simulation. cbn [h h_x h_p h_theta h_u]. rewrite name_does_not_matter by exact Nm.
    destruct (rn_step _ _ _ _ _ _ _ _ _ _ _ _ _ _ _ Rr el 0 Hel (le_n 1)) as [b [w [Hb [Hs Hw]]]].
    cbn [transformed] in Hb, Hw. subst b. cbn [sa_x0 sa_tf sa_t0 sa_p sa_y0] in Hs. unfold shooting_instant in Hs.
    rewrite Nat.add_0_r, !Nat.add_1_r in Hs. rewrite <- Hw in Hs. rewrite Nat.add_1_r in Hs. exact Hs. }
  exists h, ends. split; [exact D|]. split; [exact S|]. split; [exact X0|]. split; [intros el _; split; reflexivity|].
  split.
  - intros St e He. apply (St F (first_point k h) e He). intros i sx s0 Hsx Hs0.
    assert (Lx : length (o_x_0 (k_problem k)) = length (m_x (k_model k))) by apply (gb_x0 _ _ _ _ G).
    destruct (nth_error (o_x_0 (k_problem k)) i) as [v|] eqn:Ev.
    2: { apply nth_error_None in Ev. assert (i < length (m_x (k_model k))) by (apply nth_error_Some; congruence). lia. }
    unfold first_point, point_of. cbn [h h_x h_y h_p h_theta h_u h_x0 h_eta].
    assert (LK : 0 < K) by (unfold K; pose proof (so_elements _ T); lia).
    assert (Ly : length (y 0) = length (m_y (k_model k))).
    { destruct Sq as [_ [[_ Gy] _]]. rewrite Forall_forall in Gy. unfold rq, guess_point, table in Gy. cbn [r_y] in Gy.
      assert (I : In [y 0] (map (fun el => map (fun _ => y el) (seq 0 1)) (seq 0 K))).
      { apply in_map_iff. exists 0. split; [reflexivity|]. apply in_seq. lia. }
      destruct (Gy _ I) as [_ B]. inversion B. assumption. }
    assert (Lth : length (th 0) = length (m_theta (k_model k))) by exact (Hth 0 (th 0) LK (Rt 0 LK)).
    assert (Lc : length cc = length (m_u_par (k_model k))).
    { unfold cc. rewrite (rows_concat_length _ (control_count k) (n_u k)).
      - symmetry. apply (so_controls _ T).
      - rewrite <- (gb_u _ _ _ _ G). apply rows_repeat. }
    assert (Lpp : length (a_p a) = length (m_p (k_model k))) by apply (gb_p _ _ _ _ G).
    rewrite (assign_nth (fun _ => 0%Q) (problem_symbols k) _ (2 + i) sx v (so_symbols _ T)).
    + rewrite (assign_nth (fun _ => 0%Q) (problem_symbols k) _
        (2 + length (m_x (k_model k)) + length (m_y (k_model k)) + length (m_p (k_model k)) + length (m_theta (k_model k)) + length (m_u_par (k_model k)) + i) s0 v (so_symbols _ T)).
      * reflexivity.
      * unfold problem_symbols. cbn [Nat.add nth_error]. rewrite !app_assoc. rewrite <- (app_assoc _ (m_x_0 (k_model k))).
        rewrite nth_error_app2; rewrite !app_length; [|lia]. apply nth_error_app_l. rewrite <- Hs0. f_equal. lia.
      * rewrite X0. cbn [Nat.add nth_error]. rewrite !app_assoc. rewrite <- (app_assoc _ (o_x_0 (k_problem k)) (map env _)).
        rewrite nth_error_app2; rewrite !app_length, Lx, Ly, Lpp, Lth, Lc; [|lia]. apply nth_error_app_l. rewrite <- Ev. f_equal. lia.
    + unfold problem_symbols. cbn [Nat.add nth_error]. apply nth_error_app_l. exact Hsx.
    + rewrite X0. cbn [Nat.add nth_error]. apply nth_error_app_l. exact Ev.
  - destruct (shooting_transcription buildable label defaults "implicit" k c n s r shots T H F integrate env h HF D ends C S) as [Q _].
    rewrite Q. split; intros [B R]; (split; [exact B|]).
    + destruct R as [A1 A2 A3 A4 A5 A6 A7 A8]. constructor; assumption.
    + destruct R as [A1 A4 A5 A6 A7 A8]. constructor; try assumption.
      * intros el Hel. unfold continued. rewrite Hsum, andb_false_r. cbn [ends fst h h_x]. apply Forall2_Qeq_refl.
      * intros el Hel. cbn [ends snd h h_y]. apply Forall2_Qeq_refl.
Qed.

(** ** The choice of the guess *)

Lemma w_C79_given : forall by_sim by_info k heuristic model g x_0 p theta last_u,
    solver_guess by_sim by_info k heuristic model (Some g) x_0 p theta last_u =
    match get_solver_call_args k x_0 p theta last_u with Ok a => Ok (a, g) | Raise e => Raise e end.
Proof. reflexivity. Qed.

Lemma w_C79_unknown : forall by_sim by_info k heuristic model x_0 p theta last_u a,
    heuristic <> "simulation"%string -> heuristic <> "problem_info"%string ->
    get_solver_call_args k x_0 p theta last_u = Ok a ->
    solver_guess by_sim by_info k heuristic model None x_0 p theta last_u = Raise ValueError.
Proof.
  intros by_sim by_info k heuristic model x_0 p theta last_u a H1 H2 Ha. unfold solver_guess. rewrite Ha. cbn [bind].
  apply String.eqb_neq in H1, H2. rewrite H1, H2. reflexivity.
Qed.

Lemma args_same : forall k x x' p theta lu lu' a b,
    get_solver_call_args k x p theta lu = Ok a -> get_solver_call_args k x' p theta lu' = Ok b ->
    a_p a = a_p b /\ a_theta a = a_theta b.
Proof.
  intros k x x' p theta lu lu' a b Ha Hb. unfold get_solver_call_args in Ha, Hb.
  destruct (negb _) in Ha; [discriminate|]. destruct (negb _) in Hb; [discriminate|].
  destruct (match p with Some v => Ok v | None => _ end) as [pv|e]; [|discriminate].
  destruct (match theta with Some d => Ok d | None => _ end) as [td|e]; [|discriminate].
  destruct (lookup_all td (k_elements k)) as [ths|e]; [|discriminate].
  assert (Pa : a_p a = pv /\ a_theta a = td).
  { repeat match type of Ha with (match ?q with _ => _ end) = _ => destruct q; try discriminate end;
    injection Ha as <-; split; reflexivity. }
  assert (Pb : a_p b = pv /\ a_theta b = td).
  { repeat match type of Hb with (match ?q with _ => _ end) = _ => destruct q; try discriminate end;
    injection Hb as <-; split; reflexivity. }
  destruct Pa as [-> ->]. destruct Pb as [-> ->]. split; reflexivity.
Qed.

Lemma w_C79_given_state : forall by_sim by_info k heuristic model x x' p theta lu lu' a b g g',
    solver_guess by_sim by_info k heuristic model None x p theta lu = Ok (a, g) ->
    solver_guess by_sim by_info k heuristic model None x' p theta lu' = Ok (b, g') -> g = g'.
Proof.
  intros by_sim by_info k heuristic model x x' p theta lu lu' a b g g' H H'. unfold solver_guess in H, H'.
  destruct (get_solver_call_args k x p theta lu) as [a1|e] eqn:Ea; [|discriminate].
  destruct (get_solver_call_args k x' p theta lu') as [b1|e] eqn:Eb; [|discriminate]. cbn [bind] in H, H'.
  destruct (args_same _ _ _ _ _ _ _ _ _ Ea Eb) as [E1 E2]. rewrite E1, E2 in H.
  match type of H with bind ?q _ = _ => destruct q; [|discriminate] end. cbn [bind] in H, H'. congruence.
Qed.

(** ** Missing values *)

Lemma no_theta_elements : forall integrate defaults before after m p u y0 el grid x0 l,
    grid <> [] -> guess_elements integrate defaults before after m p None u y0 el grid x0 <> Ok l.
Proof.
  intros integrate defaults before after m p u y0 el [|times rest] x0 l Hg H; [congruence|].
  cbn [guess_elements] in H. apply bind_inv in H. destruct H as [zs [H _]]. unfold guess_element in H.
  destruct times as [|t ts]; [discriminate|].
  destruct (dae_convert_from_tau_to_time t (last (t :: ts) t) (get_dae_system m)) as [d [v|e]]; discriminate.
Qed.

Lemma w_C79_no_theta : forall integrate defaults before after points k u p other g, k_elements k <> 0 ->
    collocation_sim_guess integrate defaults before after points k u p None other <> Ok g /\
    shooting_sim_guess integrate defaults before after k u p None other <> Ok g.
Proof.
  intros integrate defaults before after points k u p other g Hk. split; intros H.
  - unfold collocation_sim_guess in H. apply bind_inv in H. destruct H as [uv [_ H]]. apply bind_inv in H. destruct H as [l [H _]].
    apply no_theta_elements in H; [exact H|]. rewrite (bps_is k Hk). unfold interpolation_times. rewrite removelast_map_seq.
    destruct (k_elements k); [congruence|]. discriminate.
  - unfold shooting_sim_guess in H. apply bind_inv in H. destruct H as [uv [_ H]]. apply bind_inv in H. destruct H as [l [H _]].
    apply no_theta_elements in H; [exact H|]. rewrite (bps_is k Hk), removelast_map_seq, tl_map_seq.
    destruct (k_elements k); [congruence|]. discriminate.
Qed.

(** ** The example *)

Definition remembering_k : method := remembering [0%Q] limited_k.
Definition remembering_nlp : nlp * par_syms * (traj sym * list shot) := Eval vm_compute in
  match create_optimization_problem (shooting_discretize any_integrator one_name [] "implicit" remembering_k) remembering_k 1000
    as x return (match x with Ok _ => (nlp * par_syms * (traj sym * list shot))%type | Raise _ => unit end) with
  | Ok k => k | Raise _ => tt end.
Lemma remembering_nlp_is :
  create_optimization_problem (shooting_discretize any_integrator one_name [] "implicit" remembering_k) remembering_k 1000 =
  Ok (fst (fst remembering_nlp), snd (fst remembering_nlp), (fst (snd remembering_nlp), snd (snd remembering_nlp))).
Proof. vm_compute. reflexivity. Qed.

Lemma remembering_shootable : shootable remembering_k.
Proof.
  assert (T := limited_shootable false). cbv zeta in T. constructor.
  - exact (so_elements _ T).
  - destruct (so_bounds _ T). constructor; assumption.
  - exact (so_symbols _ T).
  - exact (so_own _ T).
  - reflexivity.
  - reflexivity.
  - reflexivity.
  - discriminate.
Qed.

Definition started_values : list Q :=
  ([1; 0; 1; 1; 1; 1; 1; 0; 0; 0] ++ concat (repeat [1; 0; 0] 3) ++ [2; 2; 0; 0; 0; 1; 1] ++ concat (repeat [1; 0; 0; 2] 2))%Q.
Definition started_env (v : sym) : Q := nth (v - 1000) started_values 0%Q.

Lemma remembering_guessable : guessable remembering_k None [1%Q; 0%Q] cart_theta.
Proof.
  constructor.
  - exact (proj1 (so_own _ remembering_shootable)).
  - apply nodup_ok. vm_compute. reflexivity.
  - apply nodup_ok. vm_compute. reflexivity.
  - reflexivity.
  - reflexivity.
  - reflexivity.
  - intros [|[|el]] v Hel Hv; vm_compute in Hv; try (injection Hv as <-; reflexivity). discriminate.
Qed.

Lemma w_cart_started : exists k k0 n s r shots a g env,
    limited_cart = Ok k0 /\ k = remembering [0%Q] k0 /\ shootable k /\ k_cost_as_sum k = false /\ k_x0_par k = true /\
    nameless resting /\ starts_at_initial k /\
    create_optimization_problem (shooting_discretize any_integrator one_name [] "implicit" k) k 1000 = Ok (n, s, (r, shots)) /\
    solver_guess (shooting_sim_guess resting [] None None k) (shooting_guess k) k "simulation" None None None
      (Some [1%Q; 0%Q]) (Some cart_theta) None = Ok (a, g) /\
    guessable k None (a_p a) (a_theta a) /\ (forall lu, o_last_u (k_problem k) = Some lu -> length lu = n_u k) /\
    length g = 16 /\ map env (NlpModel.nx n) = g /\ map env (all_mx s) = a_par a /\ computed (fun _ x => x) resting [] env shots.
Proof.
  exists remembering_k, limited_k, (fst (fst remembering_nlp)), (snd (fst remembering_nlp)), (fst (snd remembering_nlp)), (snd (snd remembering_nlp)).
  exists (mkArgs [1; 0; 1; 1; 1; 1; 1; 0; 0; 0]%Q [1%Q; 0%Q] cart_theta [1; 0; 0]%Q (Some [0%Q])).
  exists (concat (repeat [1; 0; 0] 3) ++ [2; 2; 0; 0; 0; 1; 1])%Q, started_env.
  split; [exact limited_cart_is|]. split; [reflexivity|]. split; [exact remembering_shootable|]. split; [reflexivity|]. split; [reflexivity|].
  split; [intros c name; reflexivity|]. split.
  { intros F env e He Hs. assert (H0 := Hs 0 10 12 eq_refl eq_refl). assert (H1 := Hs 1 11 13 eq_refl eq_refl). assert (H2 := Hs 2 60 61 eq_refl eq_refl).
    change (In e [EBin OSub (EVar 12) (EVar 10); EBin OSub (EVar 13) (EVar 11); EBin OSub (EVar 61) (EVar 60)]) in He.
    destruct He as [<-|[<-|[<-|[]]]]; cbn [eval binop_eval]; [rewrite H0 | rewrite H1 | rewrite H2]; ring. }
  split; [exact remembering_nlp_is|]. split; [vm_compute; reflexivity|]. split; [exact remembering_guessable|].
  split; [intros lu E; vm_compute in E; injection E as <-; reflexivity|].
  split; [reflexivity|]. split; [vm_compute; reflexivity|]. split; [vm_compute; reflexivity|].
  unfold computed. constructor; [vm_compute; reflexivity|]. constructor; [vm_compute; reflexivity|]. constructor.
Qed.

(** Two initial states, one guess. *)
Lemma w_cart_given_state : exists k a b g, limited_cart = Ok k /\
    let k1 := remembering [0%Q] k in
    let solve x := solver_guess (shooting_sim_guess resting [] None None k1) (shooting_guess k1) k1 "simulation" None None
                     (Some x) (Some [1%Q; 0%Q]) (Some cart_theta) None in
    solve [1%Q; 0%Q; 0%Q] = Ok (a, g) /\ solve [7%Q; 0%Q; 0%Q] = Ok (b, g) /\ a_x0 b = [7%Q; 0%Q; 0%Q] /\ firstn 3 g = [1%Q; 0%Q; 0%Q].
Proof.
  exists limited_k. do 3 eexists. split; [exact limited_cart_is|]. cbv zeta. split; [vm_compute; reflexivity|].
  split; [vm_compute; reflexivity|]. split; reflexivity.
Qed.

(** Collocation: three instants in each of the two elements. *)
Lemma w_cart_grows : exists k g, limited_cart = Ok k /\ guessable (remembering [0%Q] k) None [1%Q; 0%Q] cart_theta /\
    collocation_sim_guess growing [] None None radau_two (remembering [0%Q] k) None (Some [1%Q; 0%Q]) (Some cart_theta) None = Ok g /\
    g = ([1; 0; 0; 2; 0; 0; 3; 0; 0; 3; 0; 0; 4; 0; 0; 5; 0; 0] ++ [2; 2; 2; 2] ++ [0; 0] ++ [0; 1; 1])%Q.
Proof.
  exists limited_k. eexists. split; [exact limited_cart_is|]. split; [exact remembering_guessable|]. split; vm_compute; reflexivity.
Qed.

Lemma w_cart_shot_grows : exists k g, limited_cart = Ok k /\ guessable (remembering [0%Q] k) None [1%Q; 0%Q] cart_theta /\
    shooting_sim_guess growing [] None None (remembering [0%Q] k) None (Some [1%Q; 0%Q]) (Some cart_theta) None = Ok g /\
    g = ([1; 0; 0; 2; 0; 0; 3; 0; 0] ++ [2; 2] ++ [0; 0] ++ [0; 1; 1])%Q.
Proof.
  exists limited_k. eexists. split; [exact limited_cart_is|]. split; [exact remembering_guessable|]. split; vm_compute; reflexivity.
Qed.

Lemma w_cart_unknown : exists k a, limited_cart = Ok k /\
    get_solver_call_args (remembering [0%Q] k) None (Some [1%Q; 0%Q]) (Some cart_theta) None = Ok a /\
    "random"%string <> "simulation"%string /\ "random"%string <> "problem_info"%string.
Proof.
  exists limited_k. eexists. split; [exact limited_cart_is|]. split; [vm_compute; reflexivity|]. split; discriminate.
Qed.

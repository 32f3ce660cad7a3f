(** Proofs about initial guesses by simulation. *)
From Coq Require Import String Lqa.
From Verif Require Import Base BaseProofs UtilModel ExprModel ExprProofs NlpModel NlpSpec SysModel SysSpec SimModel
  OcpModel OcpSpec OcpMoreProofs LagModel DiscModel DiscSpec DiscProofs ColSpec ShoModel ShoSpec GueModel GueSpec.
Local Open Scope list_scope.
Local Open Scope nat_scope.

Lemma bind_inv : forall (A B : Type) (r : res A) (f : A -> res B) b, bind r f = Ok b -> exists a, r = Ok a /\ f a = Ok b.
Proof. intros A B [a|e] f b H; [|discriminate]. exists a. split; [reflexivity|exact H]. Qed.

Lemma during_is : forall m a b, dae_convert_from_tau_to_time a b (get_dae_system m) = (system_during m a b, Ok tt).
Proof.
  intros m a b. unfold system_during, dae_convert_from_tau_to_time, get_dae_system. cbn [d_t d_tau d_x d_y d_p d_ode d_alg].
  unfold convert_expr_from_tau_to_time. f_equal. f_equal.
  - destruct (m_y m); reflexivity.
  - destruct (m_p m); [destruct (m_theta m); [destruct (m_u_par m)|]|]; reflexivity.
  - destruct (m_y m); reflexivity.
Qed.

Lemma tabulated : forall (A B : Type) (g : A -> B) (f : nat -> B) l d, (forall n, n < length l -> g (nth n l d) = f n) ->
    map g l = map f (seq 0 (length l)).
Proof.
  intros A B g f l d H. apply nth_ext with (d := g d) (d' := f 0).
  - rewrite !map_length, seq_length. reflexivity.
  - intros n Hn. rewrite map_length in Hn. rewrite !map_nth, seq_nth by exact Hn. apply H, Hn.
Qed.

Section Loops.
  Variables (integrate : icall -> res (list Q * list Q)) (defaults : options)
    (before : option (sim_args -> res sim_args)) (after : option (list Q * list Q -> res (list Q * list Q))).
  Let no : list Q * list Q := ([], []).

  Lemma step_arrives : forall d a z, guess_step integrate defaults before after d a = Ok z ->
      exists a' w, transformed before a a' /\
        dae_simulate integrate defaults d (sa_x0 a') (sa_tf a') (sa_t0 a') (sa_p a') (sa_y0 a') "implicit" [] = Ok w /\
        transformed after w z.
  Proof.
    intros d a z H. unfold guess_step in H. apply bind_inv in H. destruct H as [a' [Ha H]].
    apply bind_inv in H. destruct H as [w [Hw H]]. exists a', w. split; [|split; [exact Hw|]].
    - unfold transformed. destruct before; [exact Ha|]. injection Ha as <-. reflexivity.
    - unfold transformed. destruct after; [exact H|]. injection H as <-. reflexivity.
  Qed.

  Lemma points_run : forall d p y0 ts t x0 zs, guess_points integrate defaults before after d p y0 t ts x0 = Ok zs ->
      length zs = length ts /\
      forall j, j < length ts ->
        guess_step integrate defaults before after d
          (mkSimArgs (nth j (x0 :: map fst zs) []) (nth j (t :: ts) 0%Q) (nth (S j) (t :: ts) 0%Q) p y0) = Ok (nth j zs no).
  Proof.
    intros d p y0 ts. induction ts as [|t' ts IH]; intros t x0 zs H.
    - injection H as <-. split; [reflexivity|]. intros j Hj. inversion Hj.
    - cbn [guess_points] in H. apply bind_inv in H. destruct H as [z [Hz H]]. apply bind_inv in H. destruct H as [l [Hl H]].
      injection H as <-. destruct (IH t' (fst z) l Hl) as [L S]. split; [cbn; congruence|].
      intros [|j] Hj; [exact Hz|]. cbn [length] in Hj. apply Nat.succ_lt_mono in Hj. specialize (S j Hj). exact S.
  Qed.

  Lemma elements_run : forall m p theta u y0 grid el x0 l,
      guess_elements integrate defaults before after m p theta u y0 el grid x0 = Ok l ->
      length l = length grid /\ (0 < length grid -> fst (nth 0 l ([], [])) = x0) /\
      forall i, i < length grid ->
        guess_element integrate defaults before after m p theta u y0 (el + i) (nth i grid []) (fst (nth i l ([], []))) = Ok (snd (nth i l ([], []))) /\
        (S i < length grid -> fst (nth (S i) l ([], [])) = last (map fst (snd (nth i l ([], [])))) (fst (nth i l ([], [])))).
  Proof.
    intros m p theta u y0 grid. induction grid as [|times grid IH]; intros el x0 l H.
    - injection H as <-. split; [reflexivity|]. split; [intro C; inversion C|]. intros i Hi. inversion Hi.
    - cbn [guess_elements] in H. apply bind_inv in H. destruct H as [zs [Hz H]]. apply bind_inv in H. destruct H as [l' [Hl H]].
      injection H as <-. destruct (IH (S el) _ l' Hl) as [L [S0 S]]. split; [cbn; congruence|]. split; [intros _; reflexivity|].
      intros [|i] Hi.
      + rewrite Nat.add_0_r. cbn [nth fst snd]. split; [exact Hz|]. intro C. cbn [length] in C. apply S0. lia.
      + cbn [length] in Hi. rewrite Nat.add_succ_r. destruct (S i ltac:(lia)) as [A B]. split; [exact A|]. intro C. apply B. cbn [length] in C. lia.
  Qed.

  (** The loops make a run. *)
  Lemma loops_run : forall m p theta u y0 grid x0 l instant steps,
      guess_elements integrate defaults before after m p theta u y0 0 grid x0 = Ok l ->
      (forall el, el < length grid -> nth el grid [] = map (instant el) (seq 0 (S steps))) ->
      (0 < length grid -> exists pv f, p = Some pv /\ theta = Some f) /\
      forall pv f, p = Some pv -> theta = Some f ->
      exists x y th, run integrate defaults before after m pv th u y0 (length grid) steps instant x0 x y /\
        (forall el, el < length grid -> dget Nat.eqb el f = Some (th el)) /\
        map (fun e => fst e :: map fst (snd e)) l = table (length grid) (S steps) x /\
        map (fun e => map snd (snd e)) l = table (length grid) steps y /\
        map (fun e => map fst (snd e)) l = map (fun el => map (fun j => x el (S j)) (seq 0 steps)) (seq 0 (length grid)).
  Proof.
    intros m p theta u y0 grid x0 l instant steps H Hg. destruct (elements_run _ _ _ _ _ _ _ _ _ H) as [L [S0 S]].
    assert (E : forall i, i < length grid ->
      exists th pv, (exists f, theta = Some f /\ dget Nat.eqb i f = Some th) /\ p = Some pv /\
        guess_points integrate defaults before after (system_during m (instant i 0) (instant i steps)) (pv ++ th ++ u) y0 (instant i 0)
          (map (instant i) (seq 1 steps)) (fst (nth i l ([], []))) = Ok (snd (nth i l ([], [])))).
    { intros i Hi. destruct (S i Hi) as [A _]. rewrite (Hg i Hi) in A. unfold guess_element in A. cbn [seq map] in A.
      rewrite during_is in A.
      assert (Ela : last (instant i 0 :: map (instant i) (seq 1 steps)) (instant i 0) = instant i steps).
      { change (instant i 0 :: map (instant i) (seq 1 steps)) with (map (instant i) (seq 0 (Datatypes.S steps))).
        rewrite seq_S, map_app. cbn [map Nat.add]. apply last_last. }
      rewrite Ela in A.
      apply bind_inv in A. destruct A as [th [Ht A]]. apply bind_inv in A. destruct A as [pv [Hp A]].
      exists th, pv. split; [|split; [|exact A]].
      - destruct theta as [f|]; [|discriminate]. exists f. split; [reflexivity|].
        rewrite Nat.add_0_l in Ht. destruct (dget Nat.eqb i f); [|discriminate]. congruence.
      - destruct p; [|discriminate]. congruence. }
    split.
    { intro Hpos. destruct (E 0 Hpos) as [th [pv [[f [Ef _]] [Ep _]]]]. exists pv, f. split; assumption. }
    intros pv f Ep Ef.
    set (x := fun el j => nth j (fst (nth el l ([], [])) :: map fst (snd (nth el l ([], [])))) []).
    set (y := fun el j => snd (nth j (snd (nth el l ([], []))) no)).
    set (th := fun el => match dget Nat.eqb el f with Some v => v | None => [] end).
    assert (P : forall i, i < length grid -> dget Nat.eqb i f = Some (th i) /\ length (snd (nth i l ([], []))) = steps /\
      forall j, j < steps -> guess_step integrate defaults before after (system_during m (instant i 0) (instant i steps))
        (mkSimArgs (x i j) (instant i j) (instant i (Datatypes.S j)) (pv ++ th i ++ u) y0) = Ok (x i (Datatypes.S j), y i j)).
    { intros i Hi. destruct (E i Hi) as [t [pv' [[f' [Ef' Dt]] [Ep' A]]]].
      assert (f' = f) by congruence. assert (pv' = pv) by congruence. subst f' pv'.
      assert (Et : th i = t) by (unfold th; rewrite Dt; reflexivity). rewrite Et. split; [exact Dt|].
      destruct (points_run _ _ _ _ _ _ _ A) as [Lz Sz]. rewrite map_length, seq_length in Lz, Sz. split; [exact Lz|].
      intros j Hj. specialize (Sz j Hj).
      change (instant i 0 :: map (instant i) (seq 1 steps)) with (map (instant i) (seq 0 (Datatypes.S steps))) in Sz.
      rewrite !(nth_indep (map (instant i) (seq 0 (Datatypes.S steps))) 0%Q (instant i 0)) in Sz by (rewrite map_length, seq_length; lia).
      rewrite !(map_nth (instant i)), !seq_nth in Sz by lia. cbn [Nat.add] in Sz. unfold x at 1. rewrite Sz. f_equal.
      unfold x, y. cbn [nth]. rewrite (nth_indep _ [] (fst no)) by (rewrite map_length, Lz; exact Hj).
      rewrite map_nth. apply surjective_pairing. }
    exists x, y, th. split; [|split; [|split; [|split]]].
    - constructor.
      + intro Hpos. unfold x. cbn [nth]. apply S0, Hpos.
      + intros el Hel. unfold x at 1. cbn [nth]. rewrite (proj2 (S el ltac:(lia)) Hel). unfold x.
        destruct (P el ltac:(lia)) as [_ [Lz _]]. rewrite <- Lz.
        generalize (fst (nth el l ([], []))). generalize (snd (nth el l ([], []))). clear. intros zs a.
        destruct zs as [|z zs] using rev_ind; [reflexivity|].
        rewrite map_app, app_length, Nat.add_1_r. cbn [map]. rewrite last_last. cbn [nth].
        rewrite app_nth2 by (rewrite map_length; lia). rewrite map_length, Nat.sub_diag. reflexivity.
      + intros el j Hel Hj. apply step_arrives, (proj2 (proj2 (P el Hel)) j Hj).
    - intros el Hel. apply (P el Hel).
    - unfold table. rewrite <- L. apply (tabulated _ _ _ _ l ([], [])). intros n Hn.
      destruct (P n ltac:(lia)) as [_ [Lz _]].
      apply nth_ext with (d := []) (d' := x n 0).
      { cbn [length]. rewrite !map_length, seq_length, Lz. reflexivity. }
      intros i Hi. cbn [length] in Hi. rewrite map_length, Lz in Hi. rewrite (map_nth (x n)), seq_nth by exact Hi. reflexivity.
    - unfold table. rewrite <- L. apply (tabulated _ _ _ _ l ([], [])). intros n Hn.
      destruct (P n ltac:(lia)) as [_ [Lz _]]. rewrite (tabulated _ _ snd (y n) _ no).
      { rewrite Lz. reflexivity. }
      intros i Hi. reflexivity.
    - rewrite <- L. apply (tabulated _ _ _ _ l ([], [])). intros n Hn.
      destruct (P n ltac:(lia)) as [_ [Lz _]]. rewrite (tabulated _ _ fst (fun j => x n (Datatypes.S j)) _ no).
      { rewrite Lz. reflexivity. }
      intros i Hi. unfold x. cbn [nth]. rewrite (nth_indep _ [] (fst no)) by (rewrite map_length; exact Hi). rewrite map_nth. reflexivity.
  Qed.
End Loops.

(** ** Controls and other variables *)

Lemma control_is : forall k u v, guess_control (k_model k) k u = Ok v -> v = concat (repeat (guessed_control k u) (control_count k)).
Proof.
  intros k u v H. unfold guess_control in H. unfold control_count.
  assert (E : guessed_control k u = match u with Some v => v | None => match o_u_guess (k_problem k) with Some v => v
     | None => match o_last_u (k_problem k) with Some v => v | None => zeros (length (m_u (k_model k))) end end end).
  { unfold guessed_control. destruct u; [reflexivity|]. destruct (o_u_guess (k_problem k)); [reflexivity|].
    destruct (o_last_u (k_problem k)); reflexivity. }
  rewrite <- E in H. destruct (m_u_par (k_model k)); cbn in H; [injection H as <-; reflexivity|].
  destruct (k_degree_control k) as [|d]; [discriminate|]. injection H as <-. reflexivity.
Qed.

Lemma others_is : forall k p theta th rest,
    optimises_own (k_problem k) -> NoDup (m_p (k_model k)) -> NoDup (m_theta (k_model k)) -> length p = n_p k ->
    (forall el, el < k_elements k -> dget Nat.eqb el theta = Some (th el) /\ length (th el) = n_theta k) ->
    guess_others k (Some p) (Some theta) = Ok rest ->
    rest = repeat 0%Q (n_eta k) ++ map (value_in (m_p (k_model k)) p) (o_p_opt (k_problem k)) ++
           concat (map (fun el => map (value_in (m_theta (k_model k)) (th el)) (o_theta_opt (k_problem k))) (seq 0 (k_elements k))).
Proof.
  intros k p theta th rest Ho Np Nt Lp Ht H. unfold guess_others in H.
  rewrite (pick_spec (m_p (k_model k)) p _ (o_p_opt (k_problem k)) Np Lp) in H by (apply opt_indices; [exact (proj1 Ho) | exact Np]).
  rewrite (theta_guess (k_problem k) theta (k_elements k) (map th (seq 0 (k_elements k))) 0 Ho Nt) in H.
  - cbn [bind] in H. rewrite map_map in H. injection H as <-. reflexivity.
  - rewrite map_length, seq_length. reflexivity.
  - intros el v Hv. assert (Hel : el < k_elements k).
    { assert (X : nth_error (map th (seq 0 (k_elements k))) el <> None) by congruence. apply nth_error_Some in X. rewrite map_length, seq_length in X. exact X. }
    rewrite nth_error_map_seq in Hv by exact Hel. injection Hv as <-. exact (Ht el Hel).
Qed.

(** ** Grids *)

Lemma bps_is : forall k, k_elements k <> 0 -> guess_breakpoints k = map (boundary k) (seq 0 (k_elements k + 1)).
Proof.
  intros k Hk. unfold guess_breakpoints, breakpoints, delta_t. apply Nat.eqb_neq in Hk. rewrite Hk. reflexivity.
Qed.
Lemma bps_none : forall k, k_elements k = 0 -> guess_breakpoints k = [].
Proof. intros k Hk. unfold guess_breakpoints, breakpoints, delta_t. rewrite Hk. reflexivity. Qed.
Lemma removelast_map_seq : forall (A : Type) (f : nat -> A) n, removelast (map f (seq 0 (n + 1))) = map f (seq 0 n).
Proof. intros A f n. rewrite Nat.add_1_r, seq_S, map_app. cbn [map]. apply removelast_last. Qed.
Lemma tl_map_seq : forall (A : Type) (f : nat -> A) n, tl (map f (seq 0 (n + 1))) = map (fun i => f (S i)) (seq 0 n).
Proof. intros A f n. rewrite Nat.add_1_r. cbn [seq map tl]. rewrite <- seq_shift, map_map. reflexivity. Qed.

Lemma collocation_grid : forall points k, length (points (k_degree k)) = k_degree k ->
    let dt := match delta_t k with Ok q => q | Raise _ => 0%Q end in
    let grid := interpolation_times dt (guess_breakpoints k) (state_taus points k) in
    length grid = k_elements k /\
    forall el, el < k_elements k -> nth el grid [] = map (collocation_instant points k el) (seq 0 (S (k_degree k))).
Proof.
  intros points k Lp dt grid. unfold grid, interpolation_times. destruct (Nat.eq_dec (k_elements k) 0) as [E|E].
  - rewrite (bps_none k E), E. cbn. split; [reflexivity|]. intros el H. inversion H.
  - rewrite (bps_is k E), removelast_map_seq, map_map. split; [rewrite map_length, seq_length; reflexivity|].
    intros el Hel. rewrite (nth_indep _ [] ((fun i => map (fun tau => boundary k i + dt * tau)%Q (state_taus points k)) 0))
      by (rewrite map_length, seq_length; exact Hel).
    rewrite (map_nth (fun i => map (fun tau => boundary k i + dt * tau)%Q (state_taus points k))), seq_nth by exact Hel.
    cbn [Nat.add]. replace dt with (step_size k).
    2: { unfold dt, delta_t. apply Nat.eqb_neq in E. rewrite E. reflexivity. }
    assert (Ls : length (state_taus points k) = S (k_degree k)) by (cbn; congruence). rewrite <- Ls.
    apply (tabulated _ _ _ _ _ 0%Q). intros n Hn. reflexivity.
Qed.

Lemma shooting_grid : forall k,
    let bps := guess_breakpoints k in
    let grid := map (fun ab : Q * Q => [fst ab; snd ab]) (combine (removelast bps) (tl bps)) in
    length grid = k_elements k /\
    forall el, el < k_elements k -> nth el grid [] = map (shooting_instant k el) (seq 0 2).
Proof.
  intros k bps grid. unfold grid, bps. destruct (Nat.eq_dec (k_elements k) 0) as [E|E].
  - rewrite (bps_none k E), E. cbn. split; [reflexivity|]. intros el H. inversion H.
  - rewrite (bps_is k E), removelast_map_seq, tl_map_seq.
    assert (X : combine (map (boundary k) (seq 0 (k_elements k))) (map (fun i => boundary k (S i)) (seq 0 (k_elements k))) =
                map (fun i => (boundary k i, boundary k (S i))) (seq 0 (k_elements k))).
    { generalize (seq 0 (k_elements k)). intro l. induction l as [|a l IH]; [reflexivity|]. cbn [map combine]. rewrite IH. reflexivity. }
    rewrite X, map_map. cbn [fst snd]. split; [rewrite map_length, seq_length; reflexivity|].
    intros el Hel. rewrite (nth_indep _ [] ((fun i => [boundary k i; boundary k (S i)]) 0)) by (rewrite map_length, seq_length; exact Hel).
    rewrite (map_nth (fun i => [boundary k i; boundary k (S i)])), seq_nth by exact Hel. cbn [Nat.add seq map].
    unfold shooting_instant. rewrite Nat.add_0_r, Nat.add_1_r. reflexivity.
Qed.

Lemma concat_repeated : forall (A : Type) (l : list (list A)) n, concat (repeat (concat l) n) = concat (concat (repeat l n)).
Proof. intros A l n. induction n as [|n IH]; [reflexivity|]. cbn [repeat concat]. rewrite IH, concat_app. reflexivity. Qed.

(** ** Shapes *)

Lemma rows_map_seq : forall n d (f : nat -> list Q), (forall j, j < n -> length (f j) = d) -> rows n d (map f (seq 0 n)).
Proof.
  intros n d f H. split; [rewrite map_length, seq_length; reflexivity|]. apply Forall_forall. intros v Hv.
  apply in_map_iff in Hv. destruct Hv as [j [<- Hj]]. apply in_seq in Hj. apply H. lia.
Qed.
Lemma grid_table : forall K n d f, (forall el j, el < K -> j < n -> length (f el j) = d) -> grid K n d (table K n f).
Proof.
  intros K n d f H. unfold table. split; [rewrite map_length, seq_length; reflexivity|]. apply Forall_forall. intros v Hv.
  apply in_map_iff in Hv. destruct Hv as [el [<- Hel]]. apply in_seq in Hel. apply rows_map_seq. intros j Hj. apply H; lia.
Qed.

Section Sizes.
  Variables (integrate : icall -> res (list Q * list Q)) (defaults : options)
    (before : option (sim_args -> res sim_args)) (after : option (list Q * list Q -> res (list Q * list Q)))
    (m : model) (p : list Q) (theta : nat -> list Q) (u : list Q) (y0 : option (list Q))
    (K steps : nat) (instant : nat -> nat -> Q) (a b : nat).
  Hypothesis sizes : forall el j x z, arrives integrate defaults before after m p theta u y0 steps instant el j x z ->
    length (fst z) = a /\ length (snd z) = b.
  Lemma run_sizes : forall x0 x y, length x0 = a -> run integrate defaults before after m p theta u y0 K steps instant x0 x y ->
      (forall el j, el < K -> j <= steps -> length (x el j) = a) /\ (forall el j, el < K -> j < steps -> length (y el j) = b).
  Proof.
    intros x0 x y L [R1 R2 R3]. assert (S : forall el j, el < K -> j < steps -> length (x el (S j)) = a /\ length (y el j) = b).
    { intros el j Hel Hj. exact (sizes el j _ _ (R3 el j Hel Hj)). }
    split; [|intros el j Hel Hj; apply (S el j Hel Hj)].
    intros el. induction el as [|el IH]; intros [|j] Hel Hj.
    - rewrite R1 by exact Hel. exact L.
    - apply S; lia.
    - rewrite R2 by exact Hel. apply IH; lia.
    - apply S; lia.
  Qed.
End Sizes.

Lemma point_shape : forall k ne nx ny x y u p th,
    grid ne nx (n_x k) x -> grid (k_elements k) ny (n_y k) y -> length u = n_u k ->
    shaped k ne nx ny (guess_point k x y u p th).
Proof.
  intros k ne nx ny x y u p th Hx Hy Hu. unfold shaped, guess_point. cbn [r_x r_y r_u r_eta r_p r_theta].
  split; [exact Hx|]. split; [exact Hy|]. split; [rewrite <- Hu; apply grid_repeat|].
  split; [apply repeat_length|]. split; [apply map_length|]. apply rows_map_seq. intros j _. apply map_length.
Qed.

(** ** The two schemes *)

Section Schemes.
  Variables (integrate : icall -> res (list Q * list Q)) (defaults : options)
    (before : option (sim_args -> res sim_args)) (after : option (list Q * list Q -> res (list Q * list Q))).

  Lemma theta_sizes : forall k u p theta th, guessable k u p theta ->
      (forall el, el < k_elements k -> dget Nat.eqb el theta = Some (th el)) ->
      forall el, el < k_elements k -> dget Nat.eqb el theta = Some (th el) /\ length (th el) = n_theta k.
  Proof. intros k u p theta th G H el Hel. split; [apply H, Hel|]. apply (gb_theta _ _ _ _ G el); [exact Hel|apply H, Hel]. Qed.

  Lemma w_C79_collocation : forall points k u p theta other g,
      length (points (k_degree k)) = k_degree k -> guessable k u p theta ->
      collocation_sim_guess integrate defaults before after points k u (Some p) (Some theta) other = Ok g ->
      let m := match other with Some m => m | None => k_model k end in
      let c := concat (repeat (guessed_control k u) (control_count k)) in
      let K := k_elements k in
      exists x y th,
        (forall el, el < K -> dget Nat.eqb el theta = Some (th el)) /\
        run integrate defaults before after m p th c (o_y_guess (k_problem k)) K (k_degree k) (collocation_instant points k)
          (o_x_0 (k_problem k)) x y /\
        let r := guess_point k (table K (k_degree k + 1) x) (table K (k_degree k) y) (guessed_control k u) p th in
        g = flatten r /\
        ((forall el j x' z, arrives integrate defaults before after m p th c (o_y_guess (k_problem k)) (k_degree k)
            (collocation_instant points k) el j x' z -> length (fst z) = n_x k /\ length (snd z) = n_y k) ->
         collocation_shape k r).
  Proof.
    intros points k u p theta other g Lp G H m c K. unfold collocation_sim_guess in H.
    apply bind_inv in H. destruct H as [uv [Hu H]]. apply control_is in Hu. fold c in Hu. subst uv.
    apply bind_inv in H. destruct H as [l [Hl H]]. apply bind_inv in H. destruct H as [rest [Hr H]].
    destruct (collocation_grid points k Lp) as [Lg Gg].
    destruct (loops_run _ _ _ _ _ _ _ _ _ _ _ _ (collocation_instant points k) (k_degree k) Hl) as [_ R].
    { rewrite Lg. exact Gg. }
    destruct (R p theta eq_refl eq_refl) as [x [y [th [Rr [Rt [Rx [Ry _]]]]]]]. rewrite Lg in Rr, Rt, Rx, Ry. fold K in Rr, Rt, Rx, Ry.
    exists x, y, th. split; [exact Rt|]. split; [exact Rr|]. cbv zeta. split.
    - rewrite (others_is k p theta th rest (gb_own _ _ _ _ G) (gb_p_names _ _ _ _ G) (gb_theta_names _ _ _ _ G) (gb_p _ _ _ _ G)
                 (theta_sizes k u p theta th G Rt) Hr) in H.
      rewrite Rx, Ry in H. injection H as <-. unfold flatten, guess_point. cbn [r_x r_y r_u r_eta r_p r_theta].
      rewrite Nat.add_1_r. do 2 f_equal. f_equal. apply concat_repeated.
    - intro Hs. destruct (run_sizes _ _ _ _ _ _ _ _ _ _ _ _ _ _ Hs _ _ _ (gb_x0 _ _ _ _ G) Rr) as [S1 S2].
      apply point_shape; [| |apply (gb_u _ _ _ _ G)].
      + apply grid_table. intros el j Hel Hj. apply S1; [exact Hel|]. lia.
      + apply grid_table. exact S2.
  Qed.

  Lemma w_C79_shooting : forall k u p theta g,
      guessable k u p theta ->
      shooting_sim_guess integrate defaults before after k u (Some p) (Some theta) None = Ok g ->
      let c := concat (repeat (guessed_control k u) (control_count k)) in
      let K := k_elements k in
      exists x y th,
        (forall el, el < K -> dget Nat.eqb el theta = Some (th el)) /\
        run integrate defaults before after (k_model k) p th c (o_y_guess (k_problem k)) K 1 (shooting_instant k)
          (o_x_0 (k_problem k)) (fun el j => x (el + j)) (fun el _ => y el) /\
        let r := guess_point k (table (K + 1) 1 (fun el _ => x el)) (table K 1 (fun el _ => y el)) (guessed_control k u) p th in
        g = flatten r /\ x 0 = o_x_0 (k_problem k) /\
        ((forall el j x' z, arrives integrate defaults before after (k_model k) p th c (o_y_guess (k_problem k)) 1
            (shooting_instant k) el j x' z -> length (fst z) = n_x k /\ length (snd z) = n_y k) ->
         shooting_shape k r).
  Proof.
    intros k u p theta g G H c K. unfold shooting_sim_guess in H.
    apply bind_inv in H. destruct H as [uv [Hu H]]. cbn [guess_model] in Hu. apply control_is in Hu. fold c in Hu. subst uv.
    apply bind_inv in H. destruct H as [l [Hl H]]. apply bind_inv in H. destruct H as [rest [Hr H]].
    destruct (shooting_grid k) as [Lg Gg].
    destruct (loops_run _ _ _ _ _ _ _ _ _ _ _ _ (shooting_instant k) 1 Hl) as [_ R].
    { rewrite Lg. exact Gg. }
    destruct (R p theta eq_refl eq_refl) as [x [y [th [Rr [Rt [_ [Ry Rx]]]]]]]. rewrite Lg in Rr, Rt, Rx, Ry. fold K in Rr, Rt, Rx, Ry.
    cbn [guess_model] in Rr. destruct Rr as [R1 R2 R3].
    set (z := fun i => match i with 0 => o_x_0 (k_problem k) | S el => x el 1 end).
    assert (Z0 : forall el, el < K -> z el = x el 0).
    { intros [|el] Hel; cbn [z]; [symmetry; apply R1, Hel|]. symmetry. apply R2, Hel. }
    assert (RR : run integrate defaults before after (k_model k) p th c (o_y_guess (k_problem k)) K 1 (shooting_instant k)
          (o_x_0 (k_problem k)) (fun el j => z (el + j)) (fun el _ => y el 0)).
    { constructor.
      - intros _. reflexivity.
      - intros el Hel. rewrite Nat.add_0_r, Nat.add_1_r. reflexivity.
      - intros el j Hel Hj. assert (j = 0) by lia. subst j. rewrite Nat.add_0_r, Nat.add_1_r, Z0 by exact Hel.
        exact (R3 el 0 Hel Hj). }
    exists z, (fun el => y el 0), th. split; [exact Rt|]. split; [exact RR|]. cbv zeta. split; [|split; [reflexivity|]].
    - rewrite (others_is k p theta th rest (gb_own _ _ _ _ G) (gb_p_names _ _ _ _ G) (gb_theta_names _ _ _ _ G) (gb_p _ _ _ _ G)
                 (theta_sizes k u p theta th G Rt) Hr) in H.
      rewrite Rx, Ry in H. injection H as <-. unfold flatten, guess_point. cbn [r_x r_y r_u r_eta r_p r_theta].
      assert (Ex : concat (concat (table (K + 1) 1 (fun el _ => z el))) =
                   o_x_0 (k_problem k) ++ concat (concat (map (fun el => map (fun j => x el (S j)) (seq 0 1)) (seq 0 K)))).
      { unfold table. rewrite Nat.add_1_r. cbn [seq map concat app]. f_equal. rewrite <- seq_shift, map_map. reflexivity. }
      rewrite Ex, <- app_assoc. do 3 f_equal. f_equal. apply concat_repeated.
    - intro Hs. destruct (run_sizes _ _ _ _ _ _ _ _ _ _ _ _ _ _ Hs _ _ _ (gb_x0 _ _ _ _ G) RR) as [S1 S2].
      apply point_shape; [| |apply (gb_u _ _ _ _ G)].
      + apply grid_table. intros [|el] j Hel Hj; [exact (gb_x0 _ _ _ _ G)|]. specialize (S1 el 1). rewrite Nat.add_1_r in S1. apply S1; lia.
      + apply grid_table. intros el j Hel Hj. exact (S2 el 0 Hel (le_n 1)).
  Qed.
End Schemes.

(** Proofs about the transcription by multiple shooting: what it refuses, what it ignores,
    and the example. *)
From Coq Require Import String Lqa.
From Verif Require Import Base BaseProofs UtilModel ExprModel ExprProofs NlpModel NlpSpec SysModel
  SysSpec SysProofs SimModel OcpModel OcpSpec LagModel LagSpec LagProofs DiscModel DiscSpec DiscProofs
  ColSpec ColEvalProofs ColProofs ColElementProofs ColIncludeProofs ColAssemblyProofs ColMainProofs ColTopProofs
  ShoModel ShoSpec ShoShotProofs ShoProofs ShoTopProofs.
Local Open Scope list_scope.
Local Open Scope nat_scope.

(** The limits of the first increments need the last control. *)
Lemma increments_need_last : forall k us st st' i lo hi,
    include_increments k us [] 0 st = (st', Ok tt) ->
    i < length (m_u (k_model k)) -> nth_error (o_du_min (k_problem k)) i = Some lo ->
    nth_error (o_du_max (k_problem k)) i = Some hi -> ~ (lo = NInf /\ hi = PInf) -> False.
Proof.
  intros k us st st' i lo hi H6 Hi Hlo Hhi Hne.
  unfold include_increments in H6. destruct (cbind_res_inv _ _ _ _ _ _ _ _ H6) as [has [Hhas H7]]. clear H6.
  assert (Hf : increment_free (k_problem k) i = Ok false).
  { unfold increment_free. rewrite Hhi, Hlo. destruct hi, lo; try reflexivity. exfalso. apply Hne. split; reflexivity. }
  assert (Hh : has = true).
  { unfold has_delta_u in Hhas. destruct (_ || _)%bool; [discriminate|]. injection Hhas as <-. apply existsb_exists. exists i.
    split; [apply in_seq; split; [lia | exact Hi]|]. unfold increment_free in Hf. rewrite Hhi, Hlo in *. destruct hi, lo; try reflexivity. discriminate. }
  rewrite Hh in H7. destruct (cbind_res_inv _ _ _ _ _ _ _ _ H7) as [now [_ H8]]. clear H7. cbv zeta in H8.
  unfold crun in H8. destruct (run_all_each _ _ _ _ _ _ _ H8 i) as [s5 [s6 [b H9]]]; [apply in_seq; split; [lia | exact Hi]|]. clear H8.
  unfold include_increment in H9. cbv zeta in H9. rewrite Hf in H9.
  destruct (cbind_res_inv _ _ _ _ _ _ _ _ H9) as [free [Efr H10]]. clear H9. injection Efr as <-.
  destruct (cbind_res_inv _ _ _ _ _ _ _ _ H10) as [x1 [_ H11]]. clear H10.
  destruct (cbind_res_inv _ _ _ _ _ _ _ _ H11) as [x2 [_ H12]]. clear H11.
  destruct (cbind_res_inv _ _ _ _ _ _ _ _ H12) as [x3 [E3 H13]]. clear H12. injection E3 as <-.
  destruct (cbind_res_inv _ _ _ _ _ _ _ _ H13) as [x4 [E4 _]]. unfold at_index in E4. destruct i; discriminate.
Qed.

Section More.
  Variables (buildable : optval -> string -> dict string (list expr) -> options -> bool)
    (label : nat -> nat -> string) (defaults : options) (ty : string).
  Notation create k := (create_optimization_problem (shooting_discretize buildable label defaults ty k) k).

  Lemma w_C66_rate_limits : forall k c n s r shots, well_bounded (k_problem k) -> k_elements k <> 0 ->
      create k c = Ok (n, s, (r, shots)) -> rate_bounded (k_problem k) -> k_last_u_par k = true.
  Proof.
    intros k c n s r shots WB HK H [i [u [lo [hi [Hu [Hl [Hh Hne]]]]]]].
    destruct (create_inv _ _ _ _ _ _ _ H) as [Es [n0 [c0 [Hd Hn]]]].
    destruct (k_last_u_par k) eqn:EL; [reflexivity|exfalso].
    destruct (sho_discretize_inv buildable label defaults ty k _ _ _ _ _ _ _ WB HK Hd) as
      [_ [_ [_ [_ [_ [_ [zs [_ [_ [x00 [x_f [cost [na [ca [nb [cb [nc [cc [_ [_ [Hels _]]]]]]]]]]]]]]]]]]]]].
    assert (Elu : ps_last_u s = []) by (rewrite Es; unfold parameter_symbols; cbn [ps_last_u]; rewrite EL; reflexivity).
    rewrite Elu in Hels. unfold crun in Hels.
    destruct (run_all_each _ _ _ _ _ _ _ Hels 0) as [s5 [s6 [[] Hi0]]]; [apply in_seq; lia|]. unfold include_shot in Hi0. cbv zeta in Hi0.
    destruct (cbind_res_inv _ _ _ _ _ _ _ _ Hi0) as [z [_ H1]]. clear Hi0.
    destruct (cbind_res_inv _ _ _ _ _ _ _ _ H1) as [xf [_ H2]]. clear H1.
    destruct (cbind_res_inv _ _ _ _ _ _ _ _ H2) as [yf [_ H3]]. clear H2.
    destruct (cbind_res_inv _ _ _ _ _ _ _ _ H3) as [xa [_ H4]]. clear H3.
    destruct (cbind_res_inv _ _ _ _ _ _ _ _ H4) as [xn [_ H5]]. clear H4.
    destruct (cbind_res_inv _ _ _ _ _ _ _ _ H5) as [e1 [_ H6]]. clear H5.
    destruct (cbind_inv _ _ _ _ _ _ _ _ H6) as [[] [s1 [_ H7]]]. clear H6.
    destruct (cbind_res_inv _ _ _ _ _ _ _ _ H7) as [yn [_ H8]]. clear H7.
    destruct (cbind_res_inv _ _ _ _ _ _ _ _ H8) as [e2 [_ H9]]. clear H8.
    destruct (cbind_inv _ _ _ _ _ _ _ _ H9) as [[] [s2 [_ H10]]]. clear H9.
    destruct (cbind_inv _ _ _ _ _ _ _ _ H10) as [[] [s3 [H11 _]]]. clear H10.
    apply (increments_need_last _ _ _ _ i lo hi H11); [apply nth_error_Some; unfold k_model; congruence | exact Hl | exact Hh|].
    intros [-> ->]. destruct Hne as [X|X]; apply X; reflexivity.
  Qed.

  Lemma w_C66_imposition_times : forall k c n s r shots, well_bounded (k_problem k) -> k_elements k <> 0 ->
      create k c = Ok (n, s, (r, shots)) ->
      let known ws i := nth_error ws i = Some "end"%string \/ nth_error ws i = Some "default"%string in
      (forall i, i < length (o_g_ineq (k_problem k)) -> known (o_when_ineq (k_problem k)) i) /\
      (forall i, i < length (o_g_eq (k_problem k)) -> known (o_when_eq (k_problem k)) i).
  Proof.
    intros k c n s r shots WB HK H known. destruct (create_inv _ _ _ _ _ _ _ H) as [Es [n0 [c0 [Hd Hn]]]].
    destruct (sho_discretize_inv buildable label defaults ty k _ _ _ _ _ _ _ WB HK Hd) as [_ [_ [_ [_ [A [B _]]]]]].
    split; [exact A | exact B].
  Qed.

  (** A constraint imposed at the beginning of the elements is never accepted. *)
  Lemma w_C66_start_refused : forall k c i, well_bounded (k_problem k) -> k_elements k <> 0 ->
      (i < length (o_g_ineq (k_problem k)) /\ nth_error (o_when_ineq (k_problem k)) i = Some "start"%string \/
       i < length (o_g_eq (k_problem k)) /\ nth_error (o_when_eq (k_problem k)) i = Some "start"%string) ->
      exists e, create k c = Raise e.
  Proof.
    intros k c i WB HK C. destruct (create k c) as [[[n s] [r shots]]|e] eqn:E; [exfalso | exists e; reflexivity].
    destruct (w_C66_imposition_times _ _ _ _ _ _ WB HK E) as [A B].
    destruct C as [[L W]|[L W]]; [destruct (A _ L) as [X|X] | destruct (B _ L) as [X|X]]; rewrite W in X; discriminate.
  Qed.

  (** There is nothing to simulate over an empty horizon. *)
  Lemma w_C66_empty_horizon : forall k c, well_bounded (k_problem k) -> k_elements k <> 0 ->
      (o_t_0 (k_problem k) == o_t_f (k_problem k))%Q -> exists e, create k c = Raise e.
  Proof.
    intros k c WB HK Z. destruct (create k c) as [[[n s] [r shots]]|e] eqn:E; [exfalso | exists e; reflexivity].
    destruct (create_inv _ _ _ _ _ _ _ E) as [Es [n0 [c0 [Hd Hn]]]].
    destruct (sho_discretize_inv buildable label defaults ty k _ _ _ _ _ _ _ WB HK Hd) as [_ [_ [Ls [_ [_ [_ [zs [Lz [HT _]]]]]]]]].
    destruct zs as [|z zs]; [simpl in Lz; congruence|]. destruct shots as [|sh shots]; [simpl in Ls; congruence|].
    destruct (HT 0 z sh eq_refl eq_refl) as [HN _]. apply HN. unfold boundary.
    assert (S0 : (step_size k == 0)%Q).
    { unfold step_size. rewrite Z. unfold Qdiv. ring. }
    rewrite S0. ring.
  Qed.

  Lemma cbind_ext : forall (S A B : Type) (c d : cmd S A) (f g : A -> cmd S B) st,
      c st = d st -> (forall a st', f a st' = g a st') -> cbind c f st = cbind d g st.
  Proof. intros S A B c d f g st E G. unfold cbind. rewrite E. destruct (d st) as [st' [a|e]]; [apply G | reflexivity]. Qed.

  Lemma ctraverse_ext : forall (S A B : Type) (f g : A -> cmd S B) l, (forall a st, f a st = g a st) ->
      forall st, ctraverse f l st = ctraverse g l st.
  Proof.
    intros S A B f g l E. induction l as [|a l IH]; intros st; [reflexivity|]. cbn [ctraverse].
    apply cbind_ext; [apply E|]. intros b st'. apply cbind_ext; [apply IH | reflexivity].
  Qed.

  (** The simulations do not depend on the final cost. *)
  Lemma shoot_times_final_cost : forall v k sg us xs ys fts p thetas b ts i t x st,
      shoot_times buildable label defaults ty (with_final_cost v k) sg us xs ys fts p thetas b i ts t x st =
      shoot_times buildable label defaults ty k sg us xs ys fts p thetas b i ts t x st.
  Proof.
    intros v k sg us xs ys fts p thetas b ts. induction ts as [|t1 ts IH]; intros i t x st; [reflexivity|]. cbn [shoot_times].
    apply cbind_ext; [reflexivity|]. intros theta st1. cbv zeta.
    apply cbind_ext; [reflexivity|]. intros sh st2. apply cbind_ext; [reflexivity|]. intros u_t st3.
    apply cbind_ext; [reflexivity|]. intros f_t st4. apply cbind_ext; [apply IH | reflexivity].
  Qed.

  Lemma shoot_element_final_cost : forall v k bps x u p thetas fs b ew st,
      shoot_element buildable label defaults ty (with_final_cost v k) bps x u p thetas fs b ew st =
      shoot_element buildable label defaults ty k bps x u p thetas fs b ew st.
  Proof.
    intros v k bps x u p thetas fs b [el w] st. unfold shoot_element.
    do 5 (apply cbind_ext; [reflexivity|]; intros ? ?). cbv zeta.
    do 4 (apply cbind_ext; [reflexivity|]; intros ? ?).
    apply cbind_ext; [apply shoot_times_final_cost | reflexivity].
  Qed.

  (** With the cost collected as a sum the final cost has no effect at all. *)
  Lemma discretize_final_cost : forall v k s st, k_direct k = true -> k_cost_as_sum k = true ->
      shooting_discretize buildable label defaults ty (with_final_cost v k) s st =
      shooting_discretize buildable label defaults ty k s st.
  Proof.
    intros v k s st Hd Hc. unfold shooting_discretize. apply cbind_ext; [reflexivity|]. intros r st1. cbv zeta.
    do 6 (apply cbind_ext; [reflexivity|]; intros ? ?).
    apply cbind_ext.
    { unfold shoot_elements. apply cbind_ext; [|reflexivity]. apply ctraverse_ext. intros ew stt. apply shoot_element_final_cost. }
    intros out st2. do 3 (apply cbind_ext; [reflexivity|]; intros ? ?). apply cbind_ext; [|reflexivity].
    unfold shooting_cost. change (k_direct (with_final_cost v k)) with (k_direct k).
    change (k_cost_as_sum (with_final_cost v k)) with (k_cost_as_sum k). rewrite Hd, Hc. reflexivity.
  Qed.

  Lemma w_C66_final_cost_refuted : forall k c v, k_direct k = true -> k_cost_as_sum k = true ->
      create (with_final_cost v k) c = create k c.
  Proof.
    intros k c v Hd Hc. unfold create_optimization_problem. rewrite discretize_final_cost by assumption. reflexivity.
  Qed.
End More.

(** ** The statements of the properties *)

Section Statements.
  Variables (buildable : optval -> string -> dict string (list expr) -> options -> bool)
    (label : nat -> nat -> string) (defaults : options) (ty : string) (k : method) (c : nat)
    (n : nlp) (s : par_syms) (r : traj sym) (shots : list shot).
  Hypothesis T : shootable k.
  Hypothesis H : create_optimization_problem (shooting_discretize buildable label defaults ty k) k c = Ok (n, s, (r, shots)).

  Lemma w_C66_feasible : forall F integrate env h, respects F ->
      describes_shooting k env s r h -> computed F integrate defaults env shots ->
      exists ends, simulated integrate defaults ty label k h ends /\
        (feasible F env n <-> bounded k env r /\ shot_through F k h ends).
  Proof.
    intros F integrate env h HF D C.
    destruct (simulated_exists _ _ _ _ _ _ _ _ _ _ T H _ _ _ _ D C) as [ends E]. exists ends. split; [exact E|].
    apply (shooting_transcription _ _ _ _ _ _ _ _ _ _ T H _ _ _ _ HF D _ C E).
  Qed.

  Lemma w_C66_direct_cost : forall v w,
      k_direct k = true -> k_cost_as_sum k = false -> o_V (k_problem k) = [v] -> o_S (k_problem k) = [w] ->
      forall F integrate env h ends, respects F -> describes_shooting k env s r h ->
        computed F integrate defaults env shots -> simulated integrate defaults ty label k h ends ->
        exists e, nf n = [e] /\ (eval F env e == eval F (last_point k h) v + running_cost F k h w ends)%Q.
  Proof.
    intros v w Hd Hc EV ES F integrate env h ends HF D C E.
    destruct (shooting_transcription _ _ _ _ _ _ _ _ _ _ T H _ _ _ _ HF D _ C E) as [_ [_ [G _]]]. apply (G Hd Hc v w EV ES).
  Qed.

  Lemma w_C66_summed_cost : forall w,
      k_direct k = true -> k_cost_as_sum k = true -> o_S (k_problem k) = [w] ->
      forall F integrate env h ends, respects F -> describes_shooting k env s r h ->
        computed F integrate defaults env shots -> simulated integrate defaults ty label k h ends ->
        exists e, nf n = [e] /\ (eval F env e == collected_cost k ends + running_cost F k h w ends)%Q.
  Proof.
    intros w Hd Hc ES F integrate env h ends HF D C E.
    destruct (shooting_transcription _ _ _ _ _ _ _ _ _ _ T H _ _ _ _ HF D _ C E) as [_ [_ [_ [G _]]]]. apply (G Hd Hc w ES).
  Qed.

  Lemma w_C66_problem : nx n = flatten r /\ length (ng n) = shooting_constraints k.
  Proof.
    destruct (create_inv _ _ _ _ _ _ _ H) as [Es [n0 [c0 [Hd [N1 [_ [_ [N4 _]]]]]]]].
    destruct (sho_sizes _ _ _ _ _ _ _ _ _ _ H) as [_ [Lp [Rt Lx]]].
    destruct (description_exists _ _ _ _ _ _ _ _ _ _ T H (fun _ => 0%Q)) as [h D].
    destruct (sho_discretize_ok buildable label defaults ty k (fun _ x => x) _ _ _ _ _ _ _ (fun f a b E => E) T Lp Rt Lx Hd _ _
                (fun el => match nth_error shots el with
                           | Some sh => (map (fun _ => 0%Q) (sh_xf sh), map (fun _ => 0%Q) (sh_zf sh)) | None => ([], []) end) D)
      as [l [cost [E [_ [L _]]]]].
    { intros el sh Hsh. rewrite Hsh. reflexivity. }
    rewrite N1, N4, E. unfold with_objective, add_rows, add_variables, nlp_init. cbn [nx ng app].
    split; [reflexivity|]. rewrite map_length. exact L.
  Qed.

  Lemma w_C66_shots : length shots = k_elements k /\
      NoDup (all_mx s ++ flatten r ++ concat (map (fun sh => sh_xf sh ++ sh_zf sh) shots)).
  Proof.
    destruct (sho_layout _ _ _ _ _ _ _ _ _ _ T H) as [_ [Ef [Ls [Es _]]]].
    destruct (sho_sizes _ _ _ _ _ _ _ _ _ _ H) as [Ep _].
    change (fun sh => sh_xf sh ++ sh_zf sh) with shot_symbols.
    split; [exact Ls|].
    assert (Ea : all_mx s = seq c (length (all_mx s))) by (rewrite Ep, all_mx_seq, seq_length; reflexivity).
    rewrite Es, Ef at 1. rewrite Ea at 1. rewrite <- !seq_app. apply seq_NoDup.
  Qed.

  Lemma w_C66_indirect_cost : k_direct k = false -> nf n = [EConst 0%Q].
  Proof.
    intros Hi. destruct (create_inv _ _ _ _ _ _ _ H) as [Es [n0 [c0 [Hd [_ [_ [_ [_ [_ [_ N7]]]]]]]]]].
    destruct (sho_sizes _ _ _ _ _ _ _ _ _ _ H) as [_ [Lp [Rt Lx]]].
    destruct (description_exists _ _ _ _ _ _ _ _ _ _ T H (fun _ => 0%Q)) as [h D].
    destruct (sho_discretize_ok buildable label defaults ty k (fun _ x => x) _ _ _ _ _ _ _ (fun f a b E => E) T Lp Rt Lx Hd _ _
                (fun el => match nth_error shots el with
                           | Some sh => (map (fun _ => 0%Q) (sh_xf sh), map (fun _ => 0%Q) (sh_zf sh)) | None => ([], []) end) D)
      as [l [cost [E [_ [_ [_ [_ V]]]]]]].
    { intros el sh Hsh. rewrite Hsh. reflexivity. }
    rewrite N7, E. exact (V Hi).
  Qed.
End Statements.

(** ** The example *)

Definition cart_shots (k : method) := create_optimization_problem (shooting_discretize any_integrator one_name [] "implicit" k) k 1000.
Definition shot_nlp : nlp * par_syms * (traj sym * list shot) := Eval vm_compute in
  match cart_shots limited_k as x return (match x with Ok _ => (nlp * par_syms * (traj sym * list shot))%type | Raise _ => unit end) with
  | Ok k => k | Raise _ => tt end.
Definition summed_nlp : nlp * par_syms * (traj sym * list shot) := Eval vm_compute in
  match cart_shots (summing limited_k) as x return (match x with Ok _ => (nlp * par_syms * (traj sym * list shot))%type | Raise _ => unit end) with
  | Ok k => k | Raise _ => tt end.
Lemma shot_nlp_is :
  create_optimization_problem (shooting_discretize any_integrator one_name [] "implicit" limited_k) limited_k 1000 =
  Ok (fst (fst shot_nlp), snd (fst shot_nlp), (fst (snd shot_nlp), snd (snd shot_nlp))).
Proof. vm_compute. reflexivity. Qed.
Lemma summed_nlp_is :
  create_optimization_problem (shooting_discretize any_integrator one_name [] "implicit" (summing limited_k)) (summing limited_k) 1000 =
  Ok (fst (fst summed_nlp), snd (fst summed_nlp), (fst (snd summed_nlp), snd (snd summed_nlp))).
Proof. vm_compute. reflexivity. Qed.

Lemma limited_shootable : forall b, let k := if b : bool then summing limited_k else limited_k in shootable k.
Proof.
  intros b k. constructor.
  - destruct b; discriminate.
  - assert (E : k_problem k = k_problem limited_k) by (destruct b; reflexivity). rewrite E. exact (tr_bounds _ limited_cart_transcribable).
  - destruct b; apply nodup_ok; vm_compute; reflexivity.
  - assert (E : k_problem k = k_problem limited_k) by (destruct b; reflexivity). rewrite E. exact (tr_own _ limited_cart_transcribable).
  - destruct b; reflexivity.
  - destruct b; reflexivity.
  - destruct b; reflexivity.
  - destruct b; discriminate.
Qed.

Definition shot_values : list Q :=
  ([1; 0; 1; 0; 1; 0; 1; 0; 0; 0] ++ concat (repeat [1; 0; 0] 3) ++ [2; 2; 0; 0; 0; 1; 1] ++ concat (repeat [1; 0; 0; 2] 2))%Q.
Definition shot_env (v : sym) : Q := nth (v - 1000) shot_values 0%Q.

Lemma shot_describes : forall b,
    let k := if b : bool then summing limited_k else limited_k in
    let z := if b then summed_nlp else shot_nlp in
    describes_shooting k shot_env (snd (fst z)) (fst (snd z)) at_rest_shooting.
Proof.
  intros b. cbv zeta. destruct b; constructor.
  all: try reflexivity.
  all: try (intros [|[|[|el]]] l Hl; vm_compute in Hl; try discriminate; try (injection Hl as <-; vm_compute; reflexivity); destruct el; discriminate).
  all: try (intros [|[|el]] g d Hg Hd; vm_compute in Hg, Hd; try (destruct el; discriminate); injection Hg as <-; injection Hd as <-;
      (split; [reflexivity|]); intros [|[|i]] n Hn; vm_compute in Hn; try (destruct i; discriminate); injection Hn as <-;
      (split; [intros H; try reflexivity; exfalso; apply H; vm_compute; left; reflexivity |
               intros [|j] Hj; vm_compute in Hj; [try discriminate; reflexivity | destruct j; discriminate]])).
  all: (split; [reflexivity|]; intros [|[|i]] n Hn; vm_compute in Hn; try (destruct i; discriminate); injection Hn as <-;
    [ split; [reflexivity|]; intros [|j] Hj; vm_compute in Hj; [discriminate | destruct j; discriminate]
    | split; [intros H; exfalso; apply H; vm_compute; left; reflexivity|];
      intros [|j] Hj; vm_compute in Hj; [reflexivity | destruct j; discriminate]]).
Qed.

Lemma shot_computed : forall b, computed (fun _ x => x) resting [] shot_env (snd (snd (if b : bool then summed_nlp else shot_nlp))).
Proof.
  intros b. unfold computed. destruct b; (constructor; [vm_compute; reflexivity|]; constructor; [vm_compute; reflexivity|]; constructor).
Qed.

Lemma shot_simulated : forall b, simulated resting [] "implicit" one_name (if b : bool then summing limited_k else limited_k) at_rest_shooting at_rest_ends.
Proof.
  intros b el Hel. assert (E : el = 0 \/ el = 1) by (destruct b; vm_compute in Hel; lia).
  destruct b; destruct E as [-> | ->]; vm_compute; reflexivity.
Qed.

Ltac no_value H := exfalso; vm_compute in H;
  first [ discriminate | match goal with n : nat |- _ => destruct n; vm_compute in H; discriminate end ].

Lemma shot_bounded : forall b, bounded (if b : bool then summing limited_k else limited_k) shot_env (fst (snd (if b then summed_nlp else shot_nlp))).
Proof.
  intros b. destruct b; constructor;
  try (intros [|[|[|el]]] [|j] [|[|[|i]]] v lo hi Hv Hl Hh; try (no_value Hv); vm_compute in Hv, Hl, Hh;
      injection Hv as <-; injection Hl as <-; injection Hh as <-; (split; vm_compute; try exact I; discriminate)).
  all: try (intros [|i] v lo hi Hv Hl Hh; try (no_value Hv); vm_compute in Hv, Hl, Hh;
      injection Hv as <-; injection Hl as <-; injection Hh as <-; (split; vm_compute; try exact I; discriminate)).
  all: (intros [|[|el]] [|i] v lo hi Hv Hl Hh; try (no_value Hv); vm_compute in Hv, Hl, Hh;
      injection Hv as <-; injection Hl as <-; injection Hh as <-; (split; vm_compute; try exact I; discriminate)).
Qed.

Lemma shot_shot_through : forall b, shot_through (fun _ x => x) (if b : bool then summing limited_k else limited_k) at_rest_shooting at_rest_ends.
Proof.
  intros b. set (k := if b then summing limited_k else limited_k).
  assert (Two : forall el, el < k_elements k -> el = 0 \/ el = 1) by (intros el H; destruct b; vm_compute in H; lia).
  constructor.
  - intros e He. destruct b; vm_compute in He; one_of He.
  - intros el Hel. destruct (Two _ Hel) as [-> | ->]; destruct b; vm_compute; repeat constructor.
  - intros el Hel. destruct (Two _ Hel) as [-> | ->]; destruct b; vm_compute; repeat constructor.
  - intros el i lo hi Hel Hl Hh. destruct i as [|i]; [|destruct b; vm_compute in Hl; destruct i; discriminate].
    destruct b; vm_compute in Hl, Hh; injection Hl as <-; injection Hh as <-; (destruct (Two _ Hel) as [-> | ->]); split; vm_compute; discriminate.
  - intros el g Hel He. destruct (Two _ Hel) as [-> | ->]; destruct b; vm_compute in He; one_of He.
  - intros el g Hel He. destruct b; vm_compute in He; contradiction.
  - intros e He. destruct b; vm_compute in He; one_of He.
  - intros e He. destruct b; vm_compute in He; contradiction.
Qed.

Lemma w_limited_cart_shot : exists k n s r shots env,
    limited_cart = Ok k /\ shootable k /\
    create_optimization_problem (shooting_discretize any_integrator one_name [] "implicit" k) k 1000 = Ok (n, s, (r, shots)) /\
    length (nx n) = 16 /\ length (ng n) = 18 /\ length shots = 2 /\
    describes_shooting k env s r at_rest_shooting /\ computed (fun _ x => x) resting [] env shots /\
    simulated resting [] "implicit" one_name k at_rest_shooting at_rest_ends /\
    bounded k env r /\ shot_through (fun _ x => x) k at_rest_shooting at_rest_ends /\ feasible (fun _ x => x) env n.
Proof.
  exists limited_k, (fst (fst shot_nlp)), (snd (fst shot_nlp)), (fst (snd shot_nlp)), (snd (snd shot_nlp)), shot_env.
  assert (T := limited_shootable false). cbv zeta in T.
  assert (H := shot_nlp_is).
  split; [exact limited_cart_is|]. split; [exact T|]. split; [exact H|].
  split; [reflexivity|]. split; [reflexivity|]. split; [reflexivity|].
  split; [exact (shot_describes false)|]. split; [exact (shot_computed false)|]. split; [exact (shot_simulated false)|].
  split; [exact (shot_bounded false)|]. split; [exact (shot_shot_through false)|].
  apply (shooting_transcription _ _ _ _ _ _ _ _ _ _ T H _ resting _ at_rest_shooting (fun f a b E => E) (shot_describes false) at_rest_ends (shot_computed false) (shot_simulated false)).
  split; [exact (shot_bounded false) | exact (shot_shot_through false)].
Qed.

Lemma w_summing_cart_shot : exists k n s r shots env w,
    limited_cart = Ok k /\ shootable (summing k) /\ k_direct (summing k) = true /\ o_S (k_problem (summing k)) = [w] /\
    create_optimization_problem (shooting_discretize any_integrator one_name [] "implicit" (summing k)) (summing k) 1000 = Ok (n, s, (r, shots)) /\
    describes_shooting (summing k) env s r at_rest_shooting /\ computed (fun _ x => x) resting [] env shots /\
    simulated resting [] "implicit" one_name (summing k) at_rest_shooting at_rest_ends /\
    (collected_cost (summing k) at_rest_ends + running_cost (fun _ x => x) (summing k) at_rest_shooting w at_rest_ends == 2)%Q.
Proof.
  exists limited_k, (fst (fst summed_nlp)), (snd (fst summed_nlp)), (fst (snd summed_nlp)), (snd (snd summed_nlp)), shot_env, (EVar 10).
  split; [exact limited_cart_is|]. split; [exact (limited_shootable true)|]. split; [reflexivity|]. split; [reflexivity|].
  split; [exact summed_nlp_is|].
  split; [exact (shot_describes true)|]. split; [exact (shot_computed true)|]. split; [exact (shot_simulated true)|].
  vm_compute. reflexivity.
Qed.

(** The cart with its first limit imposed at the beginning of the elements, and over an
    empty horizon. *)
Lemma w_start_cart_refused : exists k, limited_cart = Ok k /\
    let k1 := imposed_at "start" k in
    well_bounded (k_problem k1) /\ k_elements k1 <> 0 /\ 0 < length (o_g_ineq (k_problem k1)) /\
    nth_error (o_when_ineq (k_problem k1)) 0 = Some "start"%string /\
    create_optimization_problem (shooting_discretize any_integrator one_name [] "implicit" k1) k1 1000 = Raise NotImplementedErr.
Proof.
  exists limited_k. split; [exact limited_cart_is|]. cbv zeta.
  split; [exact (tr_bounds _ limited_cart_transcribable)|]. split; [discriminate|]. split; [vm_compute; lia|].
  split; vm_compute; reflexivity.
Qed.
Lemma w_still_cart_refused : exists k, limited_cart = Ok k /\
    let k1 := lasting 0 k in
    well_bounded (k_problem k1) /\ k_elements k1 <> 0 /\ (o_t_0 (k_problem k1) == o_t_f (k_problem k1))%Q /\
    rate_bounded (k_problem k1) /\
    create_optimization_problem (shooting_discretize any_integrator one_name [] "implicit" k1) k1 1000 = Raise NotImplementedErr.
Proof.
  exists limited_k. split; [exact limited_cart_is|]. cbv zeta.
  split; [exact (tr_bounds _ limited_cart_transcribable)|]. split; [discriminate|]. split; [vm_compute; reflexivity|]. split.
  - exists 0. do 3 eexists. split; [reflexivity|]. split; [reflexivity|]. split; [reflexivity|]. left. discriminate.
  - vm_compute. reflexivity.
Qed.

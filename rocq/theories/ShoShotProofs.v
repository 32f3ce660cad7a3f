(** Proofs about the transcription by multiple shooting: the simulations of the
    elements. *)
From Coq Require Import String Lqa.
From Verif Require Import Base BaseProofs UtilModel ExprModel ExprProofs NlpModel SysModel SimModel OcpModel LagModel
  DiscModel DiscSpec DiscProofs ColSpec ColEvalProofs ColAssemblyProofs ColMainProofs ShoModel ShoSpec.
Local Open Scope list_scope.
Local Open Scope nat_scope.

Lemma cguard_inv : forall (S B : Type) (b : S -> bool) e (f : unit -> cmd S B) st st' r,
    cbind (cguard b e) f st = (st', Ok r) -> b st = false /\ f tt st = (st', Ok r).
Proof.
  intros S B b e f st st' r H. unfold cbind, cguard in H. destruct (b st) eqn:E; [discriminate|]. split; [reflexivity | exact H].
Qed.
Lemma fresh_inv : forall (B : Type) n (f : list sym -> cmd nlp_state B) a c st' r,
    cbind (fresh n) f (a, c) = (st', Ok r) -> f (seq c n) (a, c + n) = (st', Ok r).
Proof. intros B n f a c st' r H. exact H. Qed.

(** ** Lists of times *)

Lemma sort_times_same : forall b l, l <> [] -> Forall (eq b) l -> sort_times l = [b].
Proof.
  intros b l Hn H. induction H as [|a l <- H IH]; [contradiction|].
  cbn [sort_times fold_right]. destruct l as [|a l]; [reflexivity|].
  unfold sort_times in IH. rewrite IH by discriminate. cbn [insert_time]. rewrite (proj2 (Qeq_bool_iff b b)) by reflexivity. reflexivity.
Qed.
Lemma in_times_self : forall b, in_times b [b] = true.
Proof. intros b. unfold in_times. cbn [existsb]. rewrite (proj2 (Qeq_bool_iff b b)) by reflexivity. reflexivity. Qed.
Lemma in_times_one : forall a b, in_times a [b] = Qeq_bool a b.
Proof. intros a b. unfold in_times. cbn [existsb]. apply orb_false_r. Qed.
Lemma Qeq_bool_sym : forall a b, Qeq_bool a b = Qeq_bool b a.
Proof.
  intros a b. destruct (Qeq_bool a b) eqn:E; symmetry.
  - apply Qeq_bool_iff. apply Qeq_bool_iff in E. symmetry. exact E.
  - apply not_true_iff_false. intros H. apply Qeq_bool_iff in H. apply not_true_iff_false in E. apply E, Qeq_bool_iff.
    symmetry. exact H.
Qed.

(** ** Lists of commands *)

(** Commands that leave the NLP and create symbols. *)
Definition allocates {B : Type} (c : cmd nlp_state B) (phi : B -> list sym) (R : B -> Prop) : Prop :=
  forall n i n' i' b, c (n, i) = ((n', i'), Ok b) ->
    n' = n /\ R b /\ phi b = seq i (length (phi b)) /\ i' = i + length (phi b).
Lemma ctraverse_allocates : forall (A B : Type) (f : A -> cmd nlp_state B) phi (R : A -> B -> Prop) l,
    (forall a, In a l -> allocates (f a) phi (R a)) ->
    allocates (ctraverse f l) (fun bs => concat (map phi bs)) (Forall2 R l).
Proof.
  intros A B f phi R l. induction l as [|a l IH]; intros H n i n' i' bs E.
  - injection E as <- <- <-. cbn. split; [reflexivity|]. split; [constructor|]. split; [reflexivity | lia].
  - cbn [ctraverse] in E. destruct (cbind_inv _ _ _ _ _ _ _ _ E) as [b [[n1 i1] [E1 E2]]]. clear E.
    destruct (cbind_inv _ _ _ _ _ _ _ _ E2) as [bs' [[n2 i2] [E3 E4]]]. clear E2. injection E4 as <- <- <-.
    destruct (H a (or_introl eq_refl) _ _ _ _ _ E1) as [-> [Ra [Pa ->]]].
    destruct (IH (fun x Hx => H x (or_intror Hx)) _ _ _ _ _ E3) as [-> [Rl [Pl ->]]].
    split; [reflexivity|]. split; [constructor; assumption|]. cbn [map concat]. rewrite app_length, seq_app.
    split; [f_equal; assumption | lia].
Qed.

(** ** One simulation *)

Section Shots.
  Variables (buildable : optval -> string -> dict string (list expr) -> options -> bool)
    (label : nat -> nat -> string) (defaults : options) (ty : string) (k : method).
  Let m : model := k_model k.
  Let o : ocp := k_problem k.
  Let K : nat := k_elements k.

  Definition end_size (d : dae) : nat := if dae_is_dae d then length (d_y d) else 0.
  Definition shot_symbols (sh : shot) : list sym := sh_xf sh ++ sh_zf sh.

  Lemma shoot_inv : forall d x0 t_f t_0 p y_0 user n i n' i' sh,
      shoot buildable defaults ty d x0 t_f t_0 p y_0 user (n, i) = ((n', i'), Ok sh) ->
      n' = n /\ ~ (t_f == t_0)%Q /\
      sh = mkShot (seq i (length (d_x d))) (seq (i + length (d_x d)) (end_size d)) d x0 t_f t_0 p y_0 ty user /\
      i' = i + length (shot_symbols sh).
  Proof.
    intros d x0 t_f t_0 p y_0 user n i n' i' sh H. unfold shoot in H.
    destruct (cguard_inv _ _ _ _ _ _ _ _ H) as [Ht H1]. clear H. destruct (cguard_inv _ _ _ _ _ _ _ _ H1) as [_ H2]. clear H1.
    destruct (cbind_res_inv _ _ _ _ _ _ _ _ H2) as [plugin [_ H3]]. clear H2.
    destruct (integrator_options _ _) as [name opts].
    destruct (cguard_inv _ _ _ _ _ _ _ _ H3) as [_ H4]. clear H3.
    destruct (cbind_res_inv _ _ _ _ _ _ _ _ H4) as [a1 [_ H5]]. clear H4.
    destruct (cbind_res_inv _ _ _ _ _ _ _ _ H5) as [a2 [_ H6]]. clear H5.
    destruct (cbind_res_inv _ _ _ _ _ _ _ _ H6) as [a3 [_ H7]]. clear H6.
    apply fresh_inv in H7. apply fresh_inv in H7. injection H7 as <- <- <-.
    split; [reflexivity|]. split; [intros E; apply Qeq_bool_iff in E; congruence|]. split; [reflexivity|].
    unfold shot_symbols. cbn [sh_xf sh_zf]. rewrite app_length, !seq_length. unfold end_size. lia.
  Qed.

  (** ** One element *)

  Section Element.
    Variables (bps : list Q) (x u : list (list (list sym))) (p : list expr) (thetas : list (list expr))
      (functions : list (list func)) (el : nat) (a b : Q) (fts : list (option (list Q))).
    Hypothesis Hl : length functions = length fts.

    (** The system of the element and its only simulation. *)
    Definition system_between (t t' : Q) : dae := fst (dae_convert_from_tau_to_time t t' (get_dae_system m)).
    Record single (z : reached) (shots : list shot) : Prop := mkSingle
      { sg_tags : Forall (eq (Some [b])) fts;
        sg_time : ~ (b == a)%Q;
        sg_is : exists x_el u_el theta ta tb i vs,
          nth_error x el = Some x_el /\ nth_error u el = Some u_el /\ nth_error thetas el = Some theta /\
          nth_error bps el = Some ta /\ nth_error bps (el + 1) = Some tb /\
          exists x0, nth_error x_el 0 = Some x0 /\
          let d := system_between ta tb in
          let vu := map EVar (vectorize u_el) in
          let xf := seq i (length (m_x m)) in
          let zf := seq (i + length (m_x m)) (end_size d) in
          shots = [mkShot xf zf d (map EVar x0) b a (if k_direct k then p ++ theta ++ vu else p ++ theta)
                     (o_y_guess o) ty [("name"%string, OptStr (label el 0))]] /\
          z = mkReached [map EVar xf] [map EVar zf] [] (map (fun v => [v]) vs) /\
          Forall2 (fun fs v => exists f, nth_error fs el = Some f /\
                     call_at f (mkPoint b (map EVar xf) (map EVar zf) p theta vu) = Ok v) functions vs }.

    Lemma shoot_element_inv :
        (forall ts, In ts fts -> ts = None \/ ts = Some [a] \/ ts = Some [b]) ->
        allocates (shoot_element buildable label defaults ty k bps x u p thetas functions false
                     (el, mkDemand a b (Some [b]) (Some [b]) None fts))
          (fun zs => concat (map shot_symbols (snd zs))) (fun zs => single (fst zs) (snd zs)).
    Proof.
      intros Hts n i n' i' [z shots] H. unfold shoot_element in H. cbn [wd_t0 wd_tf wd_x wd_y wd_u wd_f asked fst snd] in H |- *.
      destruct (cbind_res_inv _ _ _ _ _ _ _ _ H) as [x0 [Hx H1]]. clear H.
      destruct (cbind_res_inv _ _ _ _ _ _ _ _ H1) as [ta [Ha H2]]. clear H1.
      destruct (cbind_res_inv _ _ _ _ _ _ _ _ H2) as [tb [Hb H3]]. clear H2.
      destruct (cbind_res_inv _ _ _ _ _ _ _ _ H3) as [d [Hd H4]]. clear H3.
      destruct (cbind_res_inv _ _ _ _ _ _ _ _ H4) as [f_u [Hfu H5]]. clear H4. cbv zeta in H5.
      destruct (cguard_inv _ _ _ _ _ _ _ _ H5) as [Hg H6]. clear H5. rewrite in_times_one in Hg.
      destruct (cbind_res_inv _ _ _ _ _ _ _ _ H6) as [u_el [Hu H7]]. clear H6.
      destruct (cbind_res_inv _ _ _ _ _ _ _ _ H7) as [u_0 [Hu0 H8]]. clear H7.
      destruct (cbind_res_inv _ _ _ _ _ _ _ _ H8) as [f_ts [Hft H9]]. clear H8.
      destruct (cbind_inv _ _ _ _ _ _ _ _ H9) as [[z1 sh1] [[n1 i1] [H10 H11]]]. clear H9. cbn [fst snd] in H11.
      rewrite in_times_one, Hg in H11. cbn [app] in H11. injection H11 as <- <- <- <-.
      injection Hu0 as <-. cbn [app] in H10 |- *.
      assert (Nab : ~ (b == a)%Q).
      { intros E. apply not_true_iff_false in Hg. apply Hg, Qeq_bool_iff. symmetry. exact E. }
      assert (Tags : Forall (eq (Some [b])) fts /\ f_ts = map (fun _ => [b]) fts).
      { clear H10 Hl. revert f_ts Hft Hts. induction fts as [|ts l IH]; intros f_ts Hft Hts.
        - injection Hft as <-. split; [constructor | reflexivity].
        - cbn [res_map] in Hft. destruct (Hts ts (or_introl eq_refl)) as [-> | [-> | ->]].
          + discriminate.
          + rewrite in_times_self in Hft. discriminate.
          + rewrite in_times_one, Hg in Hft. destruct (res_map _ l) as [l'|] eqn:El; [|discriminate]. injection Hft as <-.
            destruct (IH l' eq_refl (fun t Ht => Hts t (or_intror Ht))) as [A ->]. split; [constructor; [reflexivity | exact A] | reflexivity]. }
      destruct Tags as [Tags ->].
      assert (Grid : filter (fun t => negb (Qeq_bool t a)) (sort_times ([b] ++ [b] ++ [] ++ concat (map asked fts))) = [b]).
      { rewrite (sort_times_same b).
        - cbn [filter]. rewrite Qeq_bool_sym, Hg. reflexivity.
        - discriminate.
        - cbn [app]. constructor; [reflexivity|]. constructor; [reflexivity|].
          clear H10 Hft Hl Hts. induction Tags as [|ts l <- T IH]; [constructor|]. cbn [map asked concat app]. constructor; [reflexivity | exact IH]. }
      cbn [app] in Grid. rewrite Grid in H10. clear Grid. cbn [shoot_times] in H10.
      destruct (cbind_res_inv _ _ _ _ _ _ _ _ H10) as [theta [Hth H11]]. clear H10. cbv zeta in H11. cbn [st_el st_dae st_u] in Hth, H11.
      destruct (cbind_inv _ _ _ _ _ _ _ _ H11) as [sh [[n2 i2] [Hsh H12]]]. clear H11.
      destruct (shoot_inv _ _ _ _ _ _ _ _ _ _ _ _ Hsh) as [-> [_ [Esh Ei]]]. clear Hsh.
      destruct (cbind_res_inv _ _ _ _ _ _ _ _ H12) as [u_t [Hut H13]]. clear H12. cbn [asked] in Hut.
      injection Hut as <-.
      destruct (cbind_res_inv _ _ _ _ _ _ _ _ H13) as [f_t [Hf H14]]. clear H13.
      destruct (cbind_inv _ _ _ _ _ _ _ _ H14) as [rest [st2 [Hr H15]]]. clear H14. injection Hr as <- <-. cbn [fst snd g_x g_y g_u g_f] in H15.
      injection H15 as <- <- Ez <-. rewrite (proj2 (Qeq_bool_iff b b)) in Ez by reflexivity. cbn [orb app] in Ez. subst z1. cbn [g_x g_y g_u g_f].
      assert (Ed : d = system_between ta tb).
      { unfold system_between. fold m in Hd. unfold dae_convert_from_tau_to_time, get_dae_system in *. cbn [d_t d_tau fst] in *. injection Hd as <-. reflexivity. }
      assert (Edx : length (d_x d) = length (m_x m)).
      { rewrite Ed. unfold system_between, dae_convert_from_tau_to_time, get_dae_system. cbn [d_t d_tau fst d_x]. apply map_length. }
      assert (Esy : concat (map shot_symbols [sh]) = seq i (length (shot_symbols sh)) /\ length (concat (map shot_symbols [sh])) = length (shot_symbols sh)).
      { cbn [map concat]. rewrite app_nil_r. split; [|reflexivity]. rewrite Esh. unfold shot_symbols. cbn [sh_xf sh_zf].
        rewrite app_length, !seq_length, seq_app. reflexivity. }
      split; [reflexivity|]. split; [|split; [rewrite (proj2 Esy); exact (proj1 Esy) | rewrite (proj2 Esy); exact Ei]].
      constructor; [exact Tags | exact Nab|].
      destruct (at_index x el IndexError) as [x_el|] eqn:Ex; [|discriminate].
      apply at_index_ok in Ex, Hx, Ha, Hb, Hu, Hth.
      assert (V : exists vs, f_t = map (fun v => [v]) vs /\
        Forall2 (fun fs v => exists f, nth_error fs el = Some f /\
                     call_at f (mkPoint b (map EVar (sh_xf sh)) (map EVar (sh_zf sh)) p theta (map EVar (vectorize u_el))) = Ok v) functions vs).
      { clear Tags Hft Hts. revert functions fts Hl f_t Hf. induction functions as [|fs l IH]; intros [|ts ls] L f_t Hf; try discriminate.
        - injection Hf as <-. exists []. split; [reflexivity | constructor].
        - cbn [map combine res_map] in Hf. cbn [fst snd] in Hf. rewrite in_times_self in Hf.
          destruct (at_index fs el KeyError) as [f|] eqn:Ef; [|discriminate]. apply at_index_ok in Ef.
          destruct (call_at f _) as [v|] eqn:Ec; [|discriminate].
          destruct (res_map _ _) as [l'|] eqn:El; [|discriminate]. injection Hf as <-.
          destruct (IH ls (f_equal pred L) l' El) as [vs [-> V]]. exists (v :: vs). split; [reflexivity|].
          constructor; [exists f; split; assumption | exact V]. }
      destruct V as [vs [Ef V]].
      exists x_el, u_el, theta, ta, tb, i, vs.
      split; [exact Ex|]. split; [exact Hu|]. split; [exact Hth|]. split; [exact Ha|]. split; [exact Hb|]. exists x0. split; [exact Hx|].
      cbv zeta. rewrite <- Ed, <- Edx.
      split; [rewrite Esh; reflexivity|].
      assert (X1 : sh_xf sh = seq i (length (d_x d))) by (rewrite Esh; reflexivity).
      assert (X2 : sh_zf sh = seq (i + length (d_x d)) (end_size d)) by (rewrite Esh; reflexivity).
      rewrite X1, X2 in V. split; [|exact V].
      rewrite X1, X2. f_equal. rewrite Ef.
      assert (L : length vs = length (combine functions (map (fun _ : option (list Q) => [b]) fts))).
      { rewrite combine_length, map_length, <- Hl, Nat.min_id. symmetry. apply (Forall2_len _ _ _ _ _ V). }
      clear -L. revert L. generalize (combine functions (map (fun _ : option (list Q) => [b]) fts)) as l.
      induction vs as [|v vs IH]; intros [|c l] L; try discriminate; [reflexivity|].
      cbn [map combine fst snd app]. f_equal. apply IH. injection L as L. exact L.
    Qed.
  End Element.
End Shots.

(** ** All elements *)

Section Elements.
  Variables (buildable : optval -> string -> dict string (list expr) -> options -> bool)
    (label : nat -> nat -> string) (defaults : options) (ty : string) (k : method).
  Let m : model := k_model k.
  Let o : ocp := k_problem k.
  Let K : nat := k_elements k.
  Let bps : list Q := map (fun i => step_size k * q_of_nat i)%Q (seq 0 (K + 1)).

  Lemma bps_at : forall i q, at_index bps i IndexError = Ok q -> q = boundary k i.
  Proof.
    intros i q H. apply at_index_ok in H. unfold bps in H. rewrite nth_error_map in H.
    destruct (nth_error (seq 0 (K + 1)) i) as [j|] eqn:E; [|discriminate]. apply nth_seq_inv in E. destruct E as [_ ->].
    injection H as <-. reflexivity.
  Qed.
  Lemma bps_nth : forall i q, nth_error bps i = Some q -> q = boundary k i.
  Proof. intros i q H. apply bps_at. unfold at_index. rewrite H. reflexivity. Qed.
  Lemma system_is : forall el, system_between k (boundary k el) (boundary k (S el)) = element_system k el.
  Proof.
    intros el. unfold system_between, element_system, dae_convert_from_tau_to_time, get_dae_system. cbn [d_t d_tau fst d_x d_y d_p d_ode d_alg].
    unfold convert_expr_from_tau_to_time.
    f_equal.
    - destruct (m_y (k_model k)); reflexivity.
    - destruct (m_p (k_model k)); [destruct (m_theta (k_model k)); [destruct (m_u_par (k_model k))|]|]; reflexivity.
    - destruct (m_y (k_model k)); reflexivity.
  Qed.

  (** The groups of expressions evaluated at the end of an element. *)
  Definition groups : list (list expr) := map (fun e => [e]) (o_g_ineq o) ++ map (fun e => [e]) (o_g_eq o) ++ [o_S o].
  Definition late (ws : list string) (n : nat) : Prop :=
    forall j, j < n -> nth_error ws j = Some "end"%string \/ nth_error ws j = Some "default"%string.

  (** What one element gives. *)
  Record taken (r : traj sym) (p : list expr) (thetas : list (list expr)) (el : nat) (z : reached) (sh : shot) : Prop := mkTaken
    { tk_time : ~ (boundary k (S el) == boundary k el)%Q;
      tk_is : exists x_el x0 u_el theta i vs,
        nth_error (r_x r) el = Some x_el /\ nth_error x_el 0 = Some x0 /\
        nth_error (r_u r) el = Some u_el /\ nth_error thetas el = Some theta /\
        let vu := map EVar (concat u_el) in
        let xf := seq i (length (m_x m)) in
        let zf := seq (i + length (m_x m)) (end_size (element_system k el)) in
        sh = mkShot xf zf (element_system k el) (map EVar x0) (boundary k (S el)) (boundary k el)
               (if k_direct k then p ++ theta ++ vu else p ++ theta) (o_y_guess o) ty [("name"%string, OptStr (label el 0))] /\
        z = mkReached [map EVar xf] [map EVar zf] [] (map (fun v => [v]) vs) /\
        Forall2 (fun es v => exists f, element_function k (boundary k el) (boundary k (S el)) es = Ok f /\
                   call_at f (mkPoint (boundary k (S el)) (map EVar xf) (map EVar zf) p theta vu) = Ok v) groups vs }.

  Lemma element_functions_at : forall es fs el f, element_functions k bps es = Ok fs -> nth_error fs el = Some f ->
      element_function k (boundary k el) (boundary k (S el)) es = Ok f.
  Proof.
    intros es fs el f H Hf. unfold element_functions in H. destruct (Forall2_nth' _ _ _ _ _ _ _ (res_map_ok _ _ _ _ _ H) Hf) as [j [Hj E]].
    apply nth_seq_inv in Hj. destruct Hj as [_ ->].
    destruct (at_index bps el IndexError) as [a|] eqn:Ea; [|discriminate].
    destruct (at_index bps (el + 1) IndexError) as [b|] eqn:Eb; [|discriminate].
    apply bps_at in Ea, Eb. rewrite Nat.add_1_r in Eb. subst a b. exact E.
  Qed.

  Lemma shooting_times_inv : forall ws n a b l, shooting_times ws n a b = Ok l ->
      length l = n /\ (forall ts, In ts l -> ts = None \/ ts = Some [a] \/ ts = Some [b]) /\
      (a <> b -> Forall (eq (Some [b])) l -> late ws n).
  Proof.
    intros ws n a b l H. pose proof (res_map_ok _ _ _ _ _ H) as R. clear H.
    split; [rewrite <- (Forall2_len _ _ _ _ _ R); apply seq_length|]. split.
    - intros ts Hts. destruct (Forall2_In_r _ _ _ _ _ _ R Hts) as [i [_ Hi]]. cbn beta in Hi.
      destruct (at_index ws i IndexError) as [w|]; [|discriminate]. injection Hi as <-. unfold constraint_times.
      destruct (String.eqb w "start"); [right; left; reflexivity|]. destruct (String.eqb w "end"); [right; right; reflexivity|].
      destruct (String.eqb w "default"); [right; right; reflexivity | left; reflexivity].
    - intros Hab Hl j Hj. rewrite Forall_forall in Hl. destruct (Forall2_nth _ _ _ _ _ _ _ R (nth_seq _ _ Hj)) as [ts [Hts E]].
      cbn beta in E. destruct (at_index ws j IndexError) as [w|] eqn:Ew; [|discriminate]. apply at_index_ok in Ew. rewrite Ew.
      apply nth_error_In, Hl in Hts. subst ts. unfold constraint_times in E.
      destruct (String.eqb_spec w "start") as [_|_]; [injection E as E; contradiction|].
      destruct (String.eqb_spec w "end") as [->|_]; [left; reflexivity|].
      destruct (String.eqb_spec w "default") as [->|_]; [right; reflexivity | discriminate].
  Qed.

  Lemma shoot_elements_inv : forall r p thetas demands f_i f_e f_s n i n' i' zs shots,
      res_map (shooting_demand k bps) (seq 0 K) = Ok demands ->
      res_map (fun e => element_functions k bps [e]) (o_g_ineq o) = Ok f_i ->
      res_map (fun e => element_functions k bps [e]) (o_g_eq o) = Ok f_e ->
      element_functions k bps (o_S o) = Ok f_s ->
      shoot_elements buildable label defaults ty k bps (r_x r) (r_u r) p thetas (f_i ++ f_e ++ [f_s]) false demands (n, i) =
        ((n', i'), Ok (zs, shots)) ->
      n' = n /\ length zs = K /\ length shots = K /\
      (forall el z sh, nth_error zs el = Some z -> nth_error shots el = Some sh -> taken r p thetas el z sh) /\
      concat (map shot_symbols shots) = seq i (length (concat (map shot_symbols shots))) /\
      (K <> 0 -> late (o_when_ineq o) (length (o_g_ineq o)) /\ late (o_when_eq o) (length (o_g_eq o))).
  Proof.
    intros r p thetas demands f_i f_e f_s n i n' i' zs shots Hd Hi He Hs H.
    pose proof (res_map_ok _ _ _ _ _ Hd) as RD. pose proof (res_map_ok _ _ _ _ _ Hi) as RI. pose proof (res_map_ok _ _ _ _ _ He) as RE.
    assert (RG : Forall2 (fun es fs => element_functions k bps es = Ok fs) groups (f_i ++ f_e ++ [f_s])).
    { unfold groups. apply Forall2_app; [apply Forall2_map_l; exact RI|]. apply Forall2_app; [apply Forall2_map_l; exact RE|].
      constructor; [exact Hs | constructor]. }
    unfold shoot_elements in H. destruct (cbind_inv _ _ _ _ _ _ _ _ H) as [out [[n1 i1] [H1 H2]]]. clear H. injection H2 as <- <- <- <-.
    (* the demands *)
    assert (HD : forall el ew, nth_error demands el = Some ew -> el < K /\ exists gi ge,
      ew = (el, mkDemand (boundary k el) (boundary k (S el)) (Some [boundary k (S el)]) (Some [boundary k (S el)]) None (gi ++ ge ++ [Some [boundary k (S el)]])) /\
      shooting_times (o_when_ineq o) (length (o_g_ineq o)) (boundary k el) (boundary k (S el)) = Ok gi /\
      shooting_times (o_when_eq o) (length (o_g_eq o)) (boundary k el) (boundary k (S el)) = Ok ge).
    { intros el ew Hew. destruct (Forall2_nth' _ _ _ _ _ _ _ RD Hew) as [j [Hj E]]. apply nth_seq_inv in Hj. destruct Hj as [Hel ->].
      split; [exact Hel|]. unfold shooting_demand in E.
      destruct (at_index bps el IndexError) as [a|] eqn:Ea; [|discriminate].
      destruct (at_index bps (el + 1) IndexError) as [b|] eqn:Eb; [|discriminate].
      apply bps_at in Ea, Eb. rewrite Nat.add_1_r in Eb. subst a b. fold o in E.
      destruct (shooting_times (o_when_ineq o) _ _ _) as [gi|] eqn:Egi; [|discriminate].
      destruct (shooting_times (o_when_eq o) _ _ _) as [ge|] eqn:Ege; [|discriminate]. injection E as <-. exists gi, ge.
      split; [reflexivity|]. split; reflexivity. }
    set (phi := fun b : reached * list shot => concat (map shot_symbols (snd b))).
    pose (Rd := fun (ew : nat * demand) (b : reached * list shot) =>
      single label ty k bps (r_x r) (r_u r) p thetas (f_i ++ f_e ++ [f_s]) (fst ew)
           (wd_t0 (snd ew)) (wd_tf (snd ew)) (wd_f (snd ew)) (fst b) (snd b)).
    assert (Al : forall ew, In ew demands -> allocates
      (shoot_element buildable label defaults ty k bps (r_x r) (r_u r) p thetas (f_i ++ f_e ++ [f_s]) false ew) phi (Rd ew)).
    { intros ew Hew. apply In_nth_error in Hew. destruct Hew as [el Hel]. destruct (HD el ew Hel) as [_ [gi [ge [-> [Gi Ge]]]]].
      destruct (shooting_times_inv _ _ _ _ _ Gi) as [Li [Ti _]]. destruct (shooting_times_inv _ _ _ _ _ Ge) as [Le [Te _]].
      unfold Rd. cbn [fst snd wd_t0 wd_tf wd_f]. apply shoot_element_inv.
      - rewrite !app_length, Li, Le, <- (Forall2_len _ _ _ _ _ RI), <- (Forall2_len _ _ _ _ _ RE). reflexivity.
      - intros ts Hts. rewrite !in_app_iff in Hts. destruct Hts as [Hts | [Hts | [<- | []]]];
          [apply Ti, Hts | apply Te, Hts | right; right; reflexivity]. }
    destruct (ctraverse_allocates _ _ _ phi Rd demands Al _ _ _ _ _ H1) as [-> [R [Hsym _]]].
    assert (LD : length demands = K) by (rewrite <- (Forall2_len _ _ _ _ _ RD); apply seq_length).
    assert (LO : length out = K) by (rewrite <- (Forall2_len _ _ _ _ _ R); exact LD).
    (* one shot per element *)
    assert (One : forall el b, nth_error out el = Some b -> exists sh, snd b = [sh] /\ taken r p thetas el (fst b) sh /\
        late (o_when_ineq o) (length (o_g_ineq o)) /\ late (o_when_eq o) (length (o_g_eq o))).
    { intros el [z shs] Hb. destruct (Forall2_nth' _ _ _ _ _ _ _ R Hb) as [ew [Hew S]]. destruct (HD el ew Hew) as [Hel [gi [ge [-> [Gi Ge]]]]].
      cbn [fst snd wd_t0 wd_tf wd_f] in S |- *. destruct S as [Tags Time [x_el [u_el [theta [ta [tb [j [vs [E1 [E2 [E3 [E4 [E5 [x0 [E6 [E7 [E8 V]]]]]]]]]]]]]]]]].
      apply bps_nth in E4, E5. rewrite Nat.add_1_r in E5. subst ta tb. rewrite system_is in E7, E8, V.
      eexists. split; [exact E7|]. split.
      - constructor; [exact Time|]. exists x_el, x0, u_el, theta, j, vs.
        split; [exact E1|]. split; [exact E6|]. split; [exact E2|]. split; [exact E3|]. cbv zeta.
        split; [reflexivity|]. split; [exact E8|].
        refine (Forall2_trans_l _ _ _ _ _ _ _ _ _ _ RG V). intros es fs v Hfs [f [Hf Hc]]. exists f. split; [|exact Hc].
        apply (element_functions_at es fs el f Hfs Hf).
      - apply Forall_app in Tags. destruct Tags as [Tg1 Tg2]. apply Forall_app in Tg2. destruct Tg2 as [Tg2 _].
        assert (Nab : boundary k el <> boundary k (S el)) by (intros E; apply Time; rewrite E; reflexivity).
        split; [apply (shooting_times_inv _ _ _ _ _ Gi); assumption | apply (shooting_times_inv _ _ _ _ _ Ge); assumption]. }
    assert (Flat : forall l : list (reached * list shot), (forall b, In b l -> exists sh, snd b = [sh]) ->
        length (concat (map snd l)) = length l /\
        (forall el sh, nth_error (concat (map snd l)) el = Some sh -> exists z, nth_error l el = Some (z, [sh]))).
    { induction l as [|[z shs] l IH]; intros Hl; [split; [reflexivity | intros [|el] sh E; discriminate]|].
      destruct (Hl _ (or_introl eq_refl)) as [sh0 E0]. cbn [snd] in E0. subst shs.
      destruct (IH (fun b Hb => Hl b (or_intror Hb))) as [L N]. cbn [map concat snd app length]. split; [rewrite L; reflexivity|].
      intros [|el] sh E; [injection E as <-; exists z; reflexivity | apply (N el sh E)]. }
    destruct (Flat out) as [Lf Nf].
    { intros b Hb. apply In_nth_error in Hb. destruct Hb as [el Hel]. destruct (One el b Hel) as [sh [E _]]. exists sh. exact E. }
    split; [reflexivity|]. split; [rewrite map_length; exact LO|]. split; [rewrite Lf; exact LO|]. split; [|split].
    - intros el z sh Hz Hsh. destruct (Nf el sh Hsh) as [z' Hb]. rewrite nth_error_map, Hb in Hz. injection Hz as <-.
      destruct (One el _ Hb) as [sh' [E [Tk _]]]. cbn [fst snd] in E, Tk. injection E as <-. exact Tk.
    - assert (E : concat (map shot_symbols (concat (map snd out))) = concat (map phi out)).
      { clear. unfold phi. induction out as [|[z shs] l IH]; [reflexivity|]. cbn [map concat snd]. rewrite map_app, concat_app, IH. reflexivity. }
      rewrite E. exact Hsym.
    - intros HK. destruct (nth_error out 0) as [b|] eqn:Eb; [|apply nth_error_None in Eb; lia].
      destruct (One 0 b Eb) as [_ [_ [_ L]]]. exact L.
  Qed.
End Elements.

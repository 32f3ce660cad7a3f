(** Proofs about the direct method with multiple shooting: the simulations of the prepared
    problem are those of the problem of the user. *)
From Coq Require Import String Lqa.
From Verif Require Import Base BaseProofs UtilModel UtilProofs ExprModel ExprProofs NlpModel NlpSpec NlpProofs SysModel
  SysSpec SysProofs SimModel SimProofs OcpModel OcpSpec OcpMoreProofs LagModel LagSpec LagProofs DiscModel DiscSpec DiscProofs
  ColSpec ColEvalProofs ColMainProofs ColTopProofs DirSpec DirProofs DirColProofs DirTopProofs
  ShoModel ShoSpec ShoShotProofs ShoProofs ShoTopProofs ShoMoreProofs DmsSpec DmsRkProofs.
Local Open Scope list_scope.
Local Open Scope nat_scope.

(** ** Every simulation was built *)

Section Built.
  Variables (buildable : optval -> string -> dict string (list expr) -> options -> bool)
    (label : nat -> nat -> string) (defaults : options) (ty : string).

  Definition was_built (sh : shot) : Prop :=
    sh_type sh = ty /\ Qeq_bool (sh_tf sh) (sh_t0 sh) = false /\
    match d_tau (sh_dae sh) with Some tau => dae_depends_on (sh_dae sh) [tau] | None => false end = false /\
    exists plugin, select_plugin (sh_dae sh) ty = Ok plugin /\
      buildable (fst (integrator_options defaults (simulation_options (sh_tf sh) (sh_t0 sh) (sh_user sh)))) plugin
        (dae_system_dict (sh_dae sh)) (snd (integrator_options defaults (simulation_options (sh_tf sh) (sh_t0 sh) (sh_user sh)))) = true.
  Definition yields {B : Type} (c : cmd nlp_state B) (P : B -> Prop) : Prop :=
    forall st st' b, c st = (st', Ok b) -> P b.

  Lemma shoot_built : forall d x0 t_f t_0 p y_0 user,
      yields (shoot buildable defaults ty d x0 t_f t_0 p y_0 user) was_built.
  Proof.
    intros d x0 t_f t_0 p y_0 user [n i] st' sh H. unfold shoot in H.
    destruct (cguard_inv _ _ _ _ _ _ _ _ H) as [Ht H1]. clear H. destruct (cguard_inv _ _ _ _ _ _ _ _ H1) as [Hd H2]. clear H1.
    destruct (cbind_res_inv _ _ _ _ _ _ _ _ H2) as [plugin [Hp H3]]. clear H2.
    destruct (integrator_options _ _) as [name opts] eqn:Eo.
    destruct (cguard_inv _ _ _ _ _ _ _ _ H3) as [Hb H4]. clear H3.
    destruct (cbind_res_inv _ _ _ _ _ _ _ _ H4) as [a1 [_ H5]]. clear H4.
    destruct (cbind_res_inv _ _ _ _ _ _ _ _ H5) as [a2 [_ H6]]. clear H5.
    destruct (cbind_res_inv _ _ _ _ _ _ _ _ H6) as [a3 [_ H7]]. clear H6.
    apply fresh_inv in H7. apply fresh_inv in H7. injection H7 as <- <-.
    unfold was_built. cbn [sh_type sh_tf sh_t0 sh_dae sh_user]. rewrite Eo. cbn [fst snd].
    split; [reflexivity|]. split; [exact Ht|]. split; [exact Hd|]. exists plugin. split; [exact Hp|].
    apply Bool.negb_false_iff. exact Hb.
  Qed.
  Lemma times_built : forall k st us xs ys fts p thetas b ts i t_init x_init,
      yields (shoot_times buildable label defaults ty k st us xs ys fts p thetas b i ts t_init x_init) (fun out => Forall was_built (snd out)).
  Proof.
    intros k st us xs ys fts p thetas b. induction ts as [|t ts IH]; intros i t_init x_init s s' out H.
    - injection H as _ <-. constructor.
    - cbn [shoot_times] in H.
      destruct (cbind_res_inv _ _ _ _ _ _ _ _ H) as [theta [_ H1]]. clear H.
      destruct (cbind_inv _ _ _ _ _ _ _ _ H1) as [sh [s1 [Hs H2]]]. clear H1.
      destruct (cbind_res_inv _ _ _ _ _ _ _ _ H2) as [u_t [_ H3]]. clear H2.
      destruct (cbind_res_inv _ _ _ _ _ _ _ _ H3) as [f_t [_ H4]]. clear H3.
      destruct (cbind_inv _ _ _ _ _ _ _ _ H4) as [rest [s2 [Hr H5]]]. clear H4. injection H5 as _ <-. cbn [snd].
      constructor; [exact (shoot_built _ _ _ _ _ _ _ _ _ _ Hs) | exact (IH _ _ _ _ _ _ Hr)].
  Qed.
  Lemma element_built : forall k bps x u p thetas functions b ew,
      yields (shoot_element buildable label defaults ty k bps x u p thetas functions b ew) (fun out => Forall was_built (snd out)).
  Proof.
    intros k bps x u p thetas functions b [el w] s s' out H. unfold shoot_element in H.
    destruct (cbind_res_inv _ _ _ _ _ _ _ _ H) as [x_el [_ H1]]. clear H.
    destruct (cbind_res_inv _ _ _ _ _ _ _ _ H1) as [a [_ H2]]. clear H1.
    destruct (cbind_res_inv _ _ _ _ _ _ _ _ H2) as [b0 [_ H3]]. clear H2.
    destruct (cbind_res_inv _ _ _ _ _ _ _ _ H3) as [d [_ H4]]. clear H3.
    destruct (cbind_res_inv _ _ _ _ _ _ _ _ H4) as [f [_ H5]]. clear H4.
    destruct (cguard_inv _ _ _ _ _ _ _ _ H5) as [_ H6]. clear H5.
    destruct (cbind_res_inv _ _ _ _ _ _ _ _ H6) as [u_el [_ H7]]. clear H6.
    destruct (cbind_res_inv _ _ _ _ _ _ _ _ H7) as [u_0 [_ H8]]. clear H7.
    destruct (cbind_res_inv _ _ _ _ _ _ _ _ H8) as [f_ts [_ H9]]. clear H8.
    destruct (cbind_inv _ _ _ _ _ _ _ _ H9) as [o1 [s1 [Ho H10]]]. clear H9. injection H10 as _ <-. cbn [snd].
    exact (times_built _ _ _ _ _ _ _ _ _ _ _ _ _ _ _ _ Ho).
  Qed.
  Lemma traverse_yields : forall (A B : Type) (f : A -> cmd nlp_state B) P l, (forall a, yields (f a) P) -> yields (ctraverse f l) (Forall P).
  Proof.
    intros A B f P l Hf. induction l as [|a l IH]; intros s s' out H; [injection H as _ <-; constructor|].
    cbn [ctraverse] in H. destruct (cbind_inv _ _ _ _ _ _ _ _ H) as [b [s1 [H1 H2]]]. clear H.
    destruct (cbind_inv _ _ _ _ _ _ _ _ H2) as [bs [s2 [H3 H4]]]. clear H2. injection H4 as _ <-.
    constructor; [exact (Hf a _ _ _ H1) | exact (IH _ _ _ H3)].
  Qed.
  Lemma discretize_built : forall k s, yields (shooting_discretize buildable label defaults ty k s) (fun out => Forall was_built (snd out)).
  Proof.
    intros k s st st' out H. unfold shooting_discretize in H.
    destruct (cbind_inv _ _ _ _ _ _ _ _ H) as [r [s1 [_ H1]]]. clear H. cbv zeta in H1.
    destruct (cbind_res_inv _ _ _ _ _ _ _ _ H1) as [dem [_ H2]]. clear H1.
    destruct (cbind_res_inv _ _ _ _ _ _ _ _ H2) as [x00 [_ H3]]. clear H2.
    destruct (cbind_inv _ _ _ _ _ _ _ _ H3) as [[] [s2 [_ H4]]]. clear H3.
    destruct (cbind_res_inv _ _ _ _ _ _ _ _ H4) as [f_i [_ H5]]. clear H4.
    destruct (cbind_res_inv _ _ _ _ _ _ _ _ H5) as [f_e [_ H6]]. clear H5.
    destruct (cbind_res_inv _ _ _ _ _ _ _ _ H6) as [f_s [_ H7]]. clear H6.
    destruct (cbind_inv _ _ _ _ _ _ _ _ H7) as [[zs shots] [s3 [Hsh H8]]]. clear H7. cbn [fst snd] in H8.
    destruct (cbind_inv _ _ _ _ _ _ _ _ H8) as [[] [s4 [_ H9]]]. clear H8.
    destruct (cbind_res_inv _ _ _ _ _ _ _ _ H9) as [x_f [_ H10]]. clear H9.
    destruct (cbind_inv _ _ _ _ _ _ _ _ H10) as [[] [s5 [_ H11]]]. clear H10.
    destruct (cbind_res_inv _ _ _ _ _ _ _ _ H11) as [cost [_ H12]]. clear H11.
    destruct (cbind_inv _ _ _ _ _ _ _ _ H12) as [[] [s6 [_ H13]]]. clear H12. injection H13 as _ <-. cbn [snd].
    unfold shoot_elements in Hsh. destruct (cbind_inv _ _ _ _ _ _ _ _ Hsh) as [l [s7 [Hl Hm]]]. injection Hm as _ _ <-.
    pose proof (traverse_yields _ _ _ _ _ (element_built _ _ _ _ _ _ _ _) _ _ _ Hl) as Fl. clear - Fl.
    induction Fl as [|a l Ha Fl IH]; [constructor|]. cbn [map concat]. apply Forall_app. split; assumption.
  Qed.
  Lemma create_built : forall k c n s r shots,
      create_optimization_problem (shooting_discretize buildable label defaults ty k) k c = Ok (n, s, (r, shots)) -> Forall was_built shots.
  Proof.
    intros k c n s r shots H. destruct (create_inv _ _ _ _ _ _ _ H) as [_ [n0 [c0 [Hd _]]]].
    exact (discretize_built _ _ _ _ _ Hd).
  Qed.
End Built.

Lemma plugin_selected : forall d ty plugin, select_plugin d ty = Ok plugin -> plugin = plugin_of ty (length (d_alg d)).
Proof.
  intros d ty plugin H. unfold select_plugin, dae_is_dae, dae_is_ode in H. unfold plugin_of.
  destruct (String.eqb_spec ty "explicit") as [E|E].
  - cbn in H. injection H as <-. reflexivity.
  - destruct (String.eqb_spec ty "implicit") as [->|E'].
    + destruct (length (d_alg d)) as [|n]; cbn in H; injection H as <-; reflexivity.
    + cbn [andb] in H. destruct (memb _ _ _); [injection H as <-; reflexivity | discriminate].
Qed.

Lemma symbols_kept : forall e tau r v, In v (symbols e) -> v <> tau -> In v (symbols (substitute e [tau] [r])).
Proof.
  intros e tau r v. induction e as [q|s|o e1 IH1 e2 IH2|f e IH]; cbn [symbols substitute]; intros H Hx; [contradiction| | |apply IH; assumption].
  - destruct H as [->|[]]. cbn [subst_lookup]. destruct (Nat.eqb_spec v tau); [contradiction | left; reflexivity].
  - apply in_app_iff in H. apply in_app_iff. destruct H as [H|H]; [left; apply IH1 | right; apply IH2]; assumption.
Qed.

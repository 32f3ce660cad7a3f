(** Proofs about Runge-Kutta methods: they are solution methods. *)
From Coq Require Import String Lqa.
From Verif Require Import Base BaseProofs ExprModel ExprProofs NlpModel NlpSpec SysModel SysSpec SimModel OcpModel OcpSpec
  LagSpec DiscModel DiscSpec ColSpec ColEvalProofs DirSpec ShoModel ShoSpec DmsSpec.
Local Open Scope list_scope.
Local Open Scope nat_scope.

Lemma Forall2_Qeq_refl : forall l, Forall2 Qeq l l.
Proof. induction l; constructor; [reflexivity | assumption]. Qed.
Lemma Forall2_length_Q : forall l l', Forall2 Qeq l l' -> length l = length l'.
Proof. intros l l' H. induction H; cbn; congruence. Qed.

(** ** Equal fields *)

Section Values.
  Variables (n : nat) (f f' : Q -> list Q -> list Q).
  Hypothesis Hf : forall t t' x x', (t == t')%Q -> Forall2 Qeq x x' -> length x = n -> Forall2 Qeq (f t x) (f' t' x').

  Definition near (a b : list (list Q)) : Prop := Forall2 (Forall2 Qeq) a b.

  Lemma axpy_near : forall x x' dt dt' w k k', Forall2 Qeq x x' -> (dt == dt')%Q -> Forall2 Qeq k k' ->
      Forall2 Qeq (map (fun ab => (fst ab + dt * w * snd ab)%Q) (combine x k))
                  (map (fun ab => (fst ab + dt' * w * snd ab)%Q) (combine x' k')).
  Proof.
    intros x x' dt dt' w k k' Hx Hd. revert k k'. induction Hx as [|a b x x' Hab Hx IH]; intros k k' Hk; [constructor|].
    destruct Hk as [|u v k k' Huv Hk]; cbn [combine map]; constructor; [|apply IH, Hk]. cbn [fst snd]. rewrite Hab, Hd, Huv. reflexivity.
  Qed.
  Lemma axpy_length : forall (x k : list Q) dt w, length k = length x ->
      length (map (fun ab => (fst ab + dt * w * snd ab)%Q) (combine x k)) = length x.
  Proof. intros. rewrite map_length, combine_length. lia. Qed.
  Lemma moved_near : forall w s s' x x' dt dt', near s s' -> Forall2 Qeq x x' -> (dt == dt')%Q ->
      Forall2 Qeq (moved x dt w s) (moved x' dt' w s').
  Proof.
    unfold moved. induction w as [|a w IH]; intros s s' x x' dt dt' Hs Hx Hd; [exact Hx|].
    destruct Hs as [|u v s s' Huv Hs]; [exact Hx|]. cbn [combine fold_left fst snd].
    apply IH; [exact Hs | apply axpy_near; assumption | exact Hd].
  Qed.
End Values.

Lemma moved_length : forall w s x dt, (forall k, In k s -> length k = length x) -> length (moved x dt w s) = length x.
Proof.
  unfold moved. induction w as [|a w IH]; intros s x dt H; [reflexivity|]. destruct s as [|k s]; [reflexivity|].
  cbn [combine fold_left fst snd]. rewrite IH; [apply axpy_length, H; left; reflexivity|].
  intros k' Hk. rewrite axpy_length by (apply H; left; reflexivity). apply H. right. exact Hk.
Qed.

(** Two fields with the same values have the same run, if there is one value per state. *)
Section Same.
  Variables (tb : tableau) (n : nat) (f f' : Q -> list Q -> list Q).
  Hypothesis Hsq : forall t x, length x = n -> length (f t x) = n.
  Hypothesis Hf : forall t t' x x', (t == t')%Q -> Forall2 Qeq x x' -> length x = n -> Forall2 Qeq (f t x) (f' t' x').

  Definition near_points (a b : list (Q * list Q)) : Prop :=
    Forall2 (fun p p' => (fst p == fst p')%Q /\ Forall2 Qeq (snd p) (snd p') /\ length (snd p) = n) a b.

  Lemma points_near : forall stages s s' t t' x x' dt dt', near s s' -> (forall k, In k s -> length k = n) -> Forall2 Qeq x x' ->
      (t == t')%Q -> (dt == dt')%Q -> length x = n ->
      near_points (stage_points f t dt x stages s) (stage_points f' t' dt' x' stages s').
  Proof.
    induction stages as [|[node a] stages IH]; intros s s' t t' x x' dt dt' Hs Ls Hx Ht Hd Lx; [constructor|].
    cbn [stage_points fst snd].
    assert (Lm : length (moved x dt a s) = n) by (rewrite moved_length; [exact Lx | intros k Hk; rewrite (Ls k Hk), Lx; reflexivity]).
    assert (Hm : Forall2 Qeq (moved x dt a s) (moved x' dt' a s')) by (apply moved_near; assumption).
    assert (Hn : (t + node * dt == t' + node * dt')%Q) by (rewrite Ht, Hd; reflexivity).
    constructor; [cbn [fst snd]; auto|]. apply IH; try assumption.
    - apply Forall2_app; [exact Hs|]. constructor; [apply Hf; assumption | constructor].
    - intros k Hk. apply in_app_iff in Hk. destruct Hk as [Hk|[<-|[]]]; [apply Ls, Hk | apply Hsq, Lm].
  Qed.
  Lemma slopes_near : forall a b, near_points a b ->
      near (map (fun p => f (fst p) (snd p)) a) (map (fun p => f' (fst p) (snd p)) b) /\
      forall k, In k (map (fun p => f (fst p) (snd p)) a) -> length k = n.
  Proof.
    intros a b H. induction H as [|p p' a b [H1 [H2 H3]] H [IH1 IH2]]; [split; [constructor | intros k []]|]. cbn [map]. split.
    - constructor; [apply Hf; assumption | exact IH1].
    - intros k [<-|Hk]; [apply Hsq, H3 | apply IH2, Hk].
  Qed.
  Lemma step_near : forall t t' x x' dt dt', Forall2 Qeq x x' -> (t == t')%Q -> (dt == dt')%Q -> length x = n ->
      Forall2 Qeq (rk_step tb f t dt x) (rk_step tb f' t' dt' x') /\ length (rk_step tb f t dt x) = n.
  Proof.
    intros t t' x x' dt dt' Hx Ht Hd Lx. unfold rk_step, rk_points.
    destruct (slopes_near _ _ (points_near (tb_stages tb) [] [] t t' x x' dt dt' (Forall2_nil _) (fun k H => match H with end) Hx Ht Hd Lx)) as [A B].
    split; [apply moved_near; assumption|]. rewrite moved_length; [exact Lx|]. intros k Hk. rewrite (B k Hk), Lx. reflexivity.
  Qed.
  Lemma run_near : forall steps t t' x x' dt dt', Forall2 Qeq x x' -> (t == t')%Q -> (dt == dt')%Q -> length x = n ->
      Forall2 Qeq (rk_run tb f steps t dt x) (rk_run tb f' steps t' dt' x').
  Proof.
    induction steps as [|steps IH]; intros t t' x x' dt dt' Hx Ht Hd Lx; [exact Hx|]. cbn [rk_run].
    destruct (step_near t t' x x' dt dt' Hx Ht Hd Lx) as [A B]. apply IH; [exact A | rewrite Ht, Hd; reflexivity | exact Hd | exact B].
  Qed.
End Same.

(** With the integral as one more state. *)
Section Integral.
  Variables (tb : tableau) (n : nat) (f : Q -> list Q -> list Q) (l : Q -> list Q -> Q).
  Hypothesis Hsq : forall t x, length x = n -> length (f t x) = n.
  Let f' (t : Q) (x : list Q) : list Q := f t (removelast x) ++ [l t (removelast x)].

  Lemma axpy_more : forall (x k : list Q) c v dt w, length k = length x ->
      map (fun ab => (fst ab + dt * w * snd ab)%Q) (combine (x ++ [c]) (k ++ [v])) =
      map (fun ab => (fst ab + dt * w * snd ab)%Q) (combine x k) ++ [(c + dt * w * v)%Q].
  Proof.
    induction x as [|a x IH]; intros [|b k] c v dt w L; try discriminate; [reflexivity|]. cbn [app combine map]. rewrite IH by (cbn in L; lia). reflexivity.
  Qed.
  (** Slopes with one more component. *)
  Definition more (s' : list (list Q)) (s : list (list Q)) (vs : list Q) : Prop :=
    s' = map (fun kv => fst kv ++ [snd kv]) (combine s vs) /\ length vs = length s /\ forall k, In k s -> length k = n.
  Lemma moved_more : forall w s' s vs x c dt, more s' s vs -> length x = n ->
      exists c', moved (x ++ [c]) dt w s' = moved x dt w s ++ [c'] /\
        (c' == c + qsum (map (fun wv => dt * fst wv * snd wv) (combine w vs)))%Q.
  Proof.
    unfold moved. induction w as [|a w IH]; intros s' s vs x c dt [-> [L H]] Lx.
    - exists c. split; [reflexivity|]. cbn. ring.
    - destruct s as [|k s]; destruct vs as [|v vs]; try discriminate.
      + exists c. split; [reflexivity|]. cbn. ring.
      + cbn [combine map fold_left fst snd].
        rewrite axpy_more by (rewrite Lx; apply H; left; reflexivity).
        destruct (IH (map (fun kv => fst kv ++ [snd kv]) (combine s vs)) s vs (map (fun ab => (fst ab + dt * a * snd ab)%Q) (combine x k)) (c + dt * a * v)%Q dt) as [c' [E V]].
        * split; [reflexivity|]. split; [cbn in L; lia | intros k' Hk; apply H; right; exact Hk].
        * rewrite axpy_length; [exact Lx | rewrite Lx; apply H; left; reflexivity].
        * exists c'. split; [exact E|]. rewrite V. cbn. ring.
  Qed.
  Lemma more_next : forall s' s vs k v, more s' s vs -> length k = n -> more (s' ++ [k ++ [v]]) (s ++ [k]) (vs ++ [v]).
  Proof.
    intros s' s vs k v [-> [L H]] Lk. split; [|split].
    - assert (E : combine (s ++ [k]) (vs ++ [v]) = combine s vs ++ [(k, v)]).
      { revert vs L. induction s as [|a s IH]; intros [|b vs] L; try discriminate; [reflexivity|]. cbn. rewrite IH; [reflexivity | intros k' Hk; apply H; right; exact Hk | cbn in L; lia]. }
      rewrite E, map_app. reflexivity.
    - rewrite !app_length, L. reflexivity.
    - intros k' Hk. apply in_app_iff in Hk. destruct Hk as [Hk|[<-|[]]]; [apply H, Hk | exact Lk].
  Qed.
  Lemma points_more : forall stages s' s vs t dt x c, more s' s vs -> length x = n ->
      map (fun p => (fst p, removelast (snd p))) (stage_points f' t dt (x ++ [c]) stages s') = stage_points f t dt x stages s /\
      forall p, In p (stage_points f t dt x stages s) -> length (snd p) = n.
  Proof.
    induction stages as [|[node a] stages IH]; intros s' s vs t dt x c M Lx; [split; [reflexivity | intros p []]|].
    cbn [stage_points fst snd map]. destruct (moved_more a s' s vs x c dt M Lx) as [c' [E _]].
    assert (R : removelast (moved (x ++ [c]) dt a s') = moved x dt a s) by (rewrite E; apply removelast_last).
    assert (Lm : length (moved x dt a s) = n) by (rewrite moved_length; [exact Lx | intros k Hk; rewrite (proj2 (proj2 M) k Hk), Lx; reflexivity]).
    rewrite R. unfold f' at 2. rewrite R.
    destruct (IH (s' ++ [f (t + node * dt)%Q (moved x dt a s) ++ [l (t + node * dt)%Q (moved x dt a s)]]) (s ++ [f (t + node * dt)%Q (moved x dt a s)])
       (vs ++ [l (t + node * dt)%Q (moved x dt a s)]) t dt x c) as [A B].
    - apply more_next; [exact M | apply Hsq, Lm].
    - exact Lx.
    - split; [rewrite A; reflexivity|]. intros p [<-|Hp]; [exact Lm | apply B, Hp].
  Qed.
  Lemma step_more : forall t dt x c, length x = n ->
      exists c', rk_step tb f' t dt (x ++ [c]) = rk_step tb f t dt x ++ [c'] /\ length (rk_step tb f t dt x) = n /\
        (c' == c + qsum (map (fun wp => dt * fst wp * l (fst (snd wp)) (snd (snd wp))) (combine (tb_weights tb) (rk_points tb f t dt x))))%Q.
  Proof.
    intros t dt x c Lx. unfold rk_step, rk_points.
    assert (M0 : more [] [] []) by (split; [reflexivity | split; [reflexivity | intros k []]]).
    destruct (points_more (tb_stages tb) [] [] [] t dt x c M0 Lx) as [E L]. set (p := stage_points f t dt x (tb_stages tb) []) in *.
    assert (Hs : forall k, In k (map (fun q => f (fst q) (snd q)) p) -> length k = n).
    { intros k Hk. apply in_map_iff in Hk. destruct Hk as [q [<- Hq]]. apply Hsq, L, Hq. }
    assert (M : more (map (fun q => f' (fst q) (snd q)) (stage_points f' t dt (x ++ [c]) (tb_stages tb) []))
                     (map (fun q => f (fst q) (snd q)) p) (map (fun q => l (fst q) (snd q)) p)).
    { split; [|split; [rewrite !map_length; reflexivity | exact Hs]]. rewrite <- E. clear.
      induction (stage_points f' t dt (x ++ [c]) (tb_stages tb) []) as [|q r IH]; [reflexivity|]. cbn [map combine fst snd]. rewrite IH. reflexivity. }
    destruct (moved_more (tb_weights tb) _ _ _ x c dt M Lx) as [c' [E' V]]. exists c'. split; [exact E'|]. split.
    - rewrite moved_length; [exact Lx|]. intros k Hk. rewrite (Hs k Hk), Lx. reflexivity.
    - rewrite V. apply Qplus_comp; [reflexivity|].
      assert (X : map (fun wv => (dt * fst wv * snd wv)%Q) (combine (tb_weights tb) (map (fun q => l (fst q) (snd q)) p)) =
                  map (fun wp => (dt * fst wp * l (fst (snd wp)) (snd (snd wp)))%Q) (combine (tb_weights tb) p)).
      { clear. generalize (tb_weights tb). induction p as [|q p IH]; intros [|w ws]; try reflexivity. cbn [map combine fst snd]. rewrite IH. reflexivity. }
      rewrite X. reflexivity.
  Qed.
  Lemma run_more : forall steps t dt x c, length x = n ->
      exists c', rk_run tb f' steps t dt (x ++ [c]) = rk_run tb f steps t dt x ++ [c'] /\ (c' == c + rk_sum tb f l steps t dt x)%Q.
  Proof.
    induction steps as [|steps IH]; intros t dt x c Lx.
    - exists c. split; [reflexivity|]. cbn. ring.
    - cbn [rk_run rk_sum]. destruct (step_more t dt x c Lx) as [c1 [E1 [L1 V1]]]. rewrite E1.
      destruct (IH (t + dt)%Q dt (rk_step tb f t dt x) c1 L1) as [c2 [E2 V2]]. exists c2. split; [exact E2|]. rewrite V2, V1. ring.
  Qed.
End Integral.

Lemma rk_solution : forall tb steps, solution_method (rk_flow tb steps) (rk_total tb steps).
Proof.
  intros tb steps. constructor.
  - intros n_y f f' g g' x0 t_0 t_f Sq Sf _. unfold rk_flow. destruct n_y as [|n_y]; [|exact I]. split; [|constructor].
    apply (run_near tb (length x0)).
    + intros t x L. apply Sq; [exact L | reflexivity].
    + intros t t' x x' Ht Hx L. apply Sf; try assumption; [constructor | reflexivity].
    + apply Forall2_Qeq_refl.
    + reflexivity.
    + reflexivity.
    + reflexivity.
  - intros n_y f g l x0 c0 t_0 t_f Sq. unfold rk_flow, rk_total. destruct n_y as [|n_y]; [|exact I].
    destruct (run_more tb (length x0) (fun t x => f t x []) (fun t x => l t x [])
                (fun t x L => Sq t x [] L eq_refl) steps t_0 ((t_f - t_0) / inject_Z (Z.of_nat steps))%Q x0 c0 eq_refl) as [c' [E V]].
    rewrite E. split; [|constructor]. apply Forall2_app; [apply Forall2_Qeq_refl|]. constructor; [exact V | constructor].
Qed.

(** ** The integrators of the example *)

Lemma names_of_vars : forall l, names_of (Some (map EVar l)) = l.
Proof. induction l as [|a l IH]; [reflexivity|]. cbn in *. rewrite IH. reflexivity. Qed.

Lemma rk_integrates : forall F tb steps defaults plugin z0,
    integrates F (rk_integrator F tb steps) defaults plugin z0 (rk_flow tb steps).
Proof.
  intros F tb steps defaults plugin z0 name t tau xs ys ps ode alg opts x0 p t_0 t_f N C L1 L2 L3 L4 O1 O2 _.
  unfold rk_integrator. cbn [ic_dae ic_opts ic_x0 ic_p]. rewrite O1, O2. unfold dae_system_dict, dae_is_ode, dae_has_parameters.
  cbn [d_x d_y d_p d_ode d_alg d_t opt_sym]. rewrite map_length.
  destruct alg as [|a alg]; cbn [length Nat.eqb].
  - destruct ys as [|y ys]; [|discriminate]. cbn [length]. destruct ps as [|q ps].
    + destruct p as [|? ?]; [|discriminate]. cbn [length Nat.ltb Nat.leb app].
      change (names_of (dget String.eqb "x"%string [("x"%string, map EVar xs); ("ode"%string, ode); ("t"%string, [EVar t])])) with (names_of (Some (map EVar xs))).
      cbn [dget String.eqb Ascii.eqb Bool.eqb]. rewrite names_of_vars. reflexivity.
    + cbn [length Nat.ltb Nat.leb app]. cbn [dget String.eqb Ascii.eqb Bool.eqb]. rewrite !names_of_vars. reflexivity.
  - destruct ys as [|y ys]; [discriminate|]. destruct (0 <? length ps) eqn:E; cbn [app dget String.eqb Ascii.eqb Bool.eqb]; rewrite ?names_of_vars; reflexivity.
Qed.
Lemma built_closed : refuses_free_symbols built_if_closed.
Proof.
  intros name plugin t tau xs ys ps ode alg opts H e s He Hs. unfold built_if_closed in H.
  set (d := mkDae (map EVar xs) (map EVar ys) (map EVar ps) ode alg (Some t) (Some tau)) in H.
  pose (at_key := fun key => match dget String.eqb key (dae_system_dict d) with Some l => l | None => [] end).
  change (forallb (fun e => forallb (fun s => memb Nat.eqb s (names_of (Some (at_key "t"%string ++ at_key "x"%string ++ at_key "z"%string ++ at_key "p"%string)))) (symbols e))
            (at_key "ode"%string ++ at_key "alg"%string) = true) in H.
  assert (K : at_key "ode"%string = ode /\ at_key "alg"%string = alg /\
              forall v, In v (names_of (Some (at_key "t"%string ++ at_key "x"%string ++ at_key "z"%string ++ at_key "p"%string))) -> In v (t :: xs ++ ys ++ ps)).
  { unfold at_key, d, dae_system_dict, dae_is_ode, dae_has_parameters. cbn [d_x d_y d_p d_ode d_alg d_t opt_sym]. rewrite map_length.
    destruct alg as [|a alg']; destruct ps as [|q ps']; cbn [length Nat.eqb Nat.ltb Nat.leb app dget String.eqb Ascii.eqb Bool.eqb];
      (split; [reflexivity | split; [reflexivity|]]); intros v Hv; unfold names_of in Hv; cbn [flat_map] in Hv; rewrite ?app_nil_r in Hv;
      cbn [app] in Hv; destruct Hv as [->|Hv]; try (left; reflexivity); right; rewrite ?flat_map_app in Hv;
      pose proof (names_of_vars xs) as E1; pose proof (names_of_vars ys) as E2; pose proof (names_of_vars (q :: ps')) as E3 || pose proof E2 as E3;
      unfold names_of in E1, E2, E3; rewrite ?E1, ?E2, ?E3 in Hv; rewrite ?in_app_iff in *; tauto. }
  destruct K as [K1 [K2 K3]]. rewrite K1, K2 in H. rewrite forallb_forall in H. specialize (H e He). rewrite forallb_forall in H. specialize (H s Hs).
  apply K3. apply memb_nat. exact H.
Qed.

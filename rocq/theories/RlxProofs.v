(** Proofs about the plots of connections and the data set of a result. *)
From Coq Require Import String.
From Verif Require Import Base BaseProofs UtilModel UtilProofs ExprModel SysModel SimModel DataModel DiscModel NetModel ResModel PloModel PloSpec PloProofs PloTopProofs RlxModel RlxSpec.
Local Open Scope list_scope.
Local Open Scope nat_scope.

Lemma found_rows : forall vars vector r, In r (find_syms vars vector) <-> row_of vector vars r.
Proof.
  intros vars vector r. unfold find_syms, sym_eqb, row_of. rewrite (find_indices_In Nat.eqb Nat.eqb_eq).
  split; intros [v [H1 H2]]; exists v; tauto.
Qed.

Section Relaxations.
  Variable re : string -> string -> res bool.
  Variable results : dict addr (res dataset).
  Variables y_of u_of : addr -> list sym.
  Hypothesis good : forall a d, data_of results a d -> labelled d.

  Let request (entry : string) (index : list nat) : list drawing := [[(entry, Chosen (map (fun i => Index (Z.of_nat i)) index))]].
  Lemma request_index : forall index a, In a (map (fun i => Index (Z.of_nat i)) index) -> exists i, a = Index (Z.of_nat i) /\ In i index.
  Proof. intros index a H. apply in_map_iff in H. destruct H as [i [<- H]]. exists i. tauto. Qed.

  Lemma drawable_rows : forall d entry vars vector, labelled d ->
      (Forall (drawable re false d) (request entry (find_syms vars vector)) <-> has_rows d entry vector vars).
  Proof.
    intros d entry vars vector L. unfold request. split.
    - intros F. inversion F as [|? ? D _]; subst. destruct (D entry _ (or_introl eq_refl)) as [e [He [[I _] S]]]. exists e. split; [exact He|]. split.
      + intros r Hr. apply found_rows in Hr. destruct (I (Z.of_nat r)) as [r' [[Lr E] M]].
        { apply in_map_iff. exists r. tauto. }
        assert (r' = r) by lia. subst r'. tauto.
      + destruct S as [S|[S|S]]; [tauto|tauto|]. right. right. cbn in S. intros r Hr. apply found_rows in Hr. destruct (find_syms vars vector); [destruct Hr|discriminate].
    - intros [e [He [R S]]]. constructor; [|constructor]. intros k a [E|[]]. injection E as <- <-. exists e. split; [exact He|]. split.
      + split; [|split].
        * intros i Hi. apply request_index in Hi. destruct Hi as [j [E Hj]]. injection E as ->. apply found_rows in Hj. destruct (R j Hj) as [R1 R2].
          exists j. split; [split; [exact R1|left; reflexivity]|exact R2].
        * intros s Hs. apply request_index in Hs. destruct Hs as [j [E _]]. discriminate.
        * intros [s Hs]. apply request_index in Hs. destruct Hs as [j [E _]]. discriminate.
      + destruct S as [S|[S|S]]; [tauto|tauto|]. right. right. cbn. destruct (find_syms vars vector) as [|i l] eqn:E; [reflexivity|].
        destruct (S i). apply found_rows. rewrite E. left. reflexivity.
  Qed.
  Lemma end_ok : forall a entry vars vector fig out, draw_end re results a entry (find_syms vars vector) fig = Ok out ->
      exists d ls, data_of results a d /\ out = [(Numbered 0, ls)] /\ has_rows d entry vector vars /\
        (forall l, In l ls -> exists r, row_of vector vars r /\ shows d entry r l) /\
        (forall r, row_of vector vars r -> exists l, In l ls /\ shows d entry r l).
  Proof.
    intros a entry vars vector fig out H. unfold draw_end in H. fold (request entry (find_syms vars vector)) in H.
    destruct (dget Nat.eqb a results) as [[d|x]|] eqn:Ea; [|discriminate|discriminate]. pose proof (good a d Ea) as L.
    destruct (plot re false d (Some [fig]) (request entry (find_syms vars vector))) as [rest o] eqn:Ep. cbn [snd] in H. subst o.
    destruct (w_lines re false d _ _ rest out L Ep) as [Len Each]. change (plots (request entry (find_syms vars vector))) with (request entry (find_syms vars vector)) in Len, Each.
    destruct out as [|[f ls] [|]]; try discriminate. destruct (Each 0 _ f ls eq_refl eq_refl) as [-> [E1 E2]].
    assert (HR : has_rows d entry vector vars).
    { apply (drawable_rows d entry vars vector L). refine (proj1 (proj1 (w_accepted re false d (Some [fig]) _ L _ _) _)); [discriminate| |exists rest, [(Numbered 0, ls)]; exact Ep].
      intros _ q k b e [<-|[]] [E|[]] He. injection E as <- <-. intros s n Hs. apply request_index in Hs. destruct Hs as [j [E _]]. discriminate. }
    exists d, ls. split; [exact Ea|]. split; [reflexivity|]. split; [exact HR|]. split.
    - intros l Hl. destruct (E1 l Hl) as [k [r Hs]]. destruct (proj1 (E2 k r) (ex_intro _ l (conj Hl Hs))) as [b [e [[E|[]] [He A]]]]. injection E as <- <-.
      exists r. split; [|exact Hs]. destruct A as [[i [Hi Si]]|[s [Hs' _]]].
      + apply request_index in Hi. destruct Hi as [j [E Hj]]. injection E as ->. apply found_rows. destruct Si as [S1 S2].
        destruct HR as [e' [He' [R _]]]. rewrite He in He'. injection He' as <-. apply found_rows in Hj as Hj'. pose proof (R j Hj'). assert (r = j) by lia. subst r. exact Hj.
      + apply request_index in Hs'. destruct Hs' as [j [E _]]. discriminate.
    - intros r Hr. apply E2. destruct HR as [e [He [R _]]]. exists (Chosen (map (fun i => Index (Z.of_nat i)) (find_syms vars vector))), e.
      split; [left; reflexivity|]. split; [exact He|]. left. exists (Z.of_nat r). split; [|split; [apply R; exact Hr|left; reflexivity]].
      apply in_map_iff. exists r. split; [reflexivity|]. apply found_rows. exact Hr.
  Qed.
  Lemma end_draws : forall a entry vars vector fig d, data_of results a d -> has_rows d entry vector vars ->
      exists out, draw_end re results a entry (find_syms vars vector) fig = Ok out.
  Proof.
    intros a entry vars vector fig d Ea HR. pose proof (good a d Ea) as L. unfold data_of in Ea. unfold draw_end. rewrite Ea.
    destruct (proj2 (w_accepted re false d (Some [fig]) (request entry (find_syms vars vector)) L (fun E => ltac:(discriminate E))
      (fun _ q k b e => ltac:(intros [<-|[]] [E|[]] He; injection E as <- <-; intros s n Hs; apply request_index in Hs; destruct Hs as [j [E _]]; discriminate)))) as [rest [out H]].
    - split; [apply (drawable_rows d entry vars vector L); exact HR|]. intros fs _. cbn. lia.
    - exists out. unfold request in H. rewrite H. reflexivity.
  Qed.

  Lemma connections_ok : forall cs k out, draw_connections re results y_of u_of k cs = Ok out ->
      length out = length cs /\ forall j a b ys us drawn, nth_error cs j = Some (a, b, (ys, us)) -> nth_error out j = Some drawn ->
        draw_connection re results y_of u_of (k + j) (a, b, (ys, us)) = Ok drawn.
  Proof.
    induction cs as [|c cs IH]; intros k out H; cbn [draw_connections] in H.
    - injection H as <-. split; [reflexivity|]. intros [|j]; discriminate.
    - destruct (draw_connection re results y_of u_of k c) as [l|x] eqn:E; [|discriminate].
      destruct (draw_connections re results y_of u_of (S k) cs) as [ls|x] eqn:E'; [|discriminate]. injection H as <-.
      destruct (IH (S k) ls E') as [L I]. split; [cbn; congruence|]. intros [|j] a b ys us drawn H1 H2; cbn in H1, H2.
      + injection H1 as ->. injection H2 as <-. rewrite Nat.add_0_r. exact E.
      + rewrite <- Nat.add_succ_comm. exact (I j a b ys us drawn H1 H2).
  Qed.
  Lemma c97_lines : forall g out, plot_all_relaxations re results y_of u_of g = Ok out ->
      length out = length (edges g) /\
      forall j a b ys us drawn, nth_error (edges g) j = Some (a, b, (ys, us)) -> nth_error out j = Some drawn ->
        exists d d', data_of results a d /\ data_of results b d' /\
          (forall l, In l (every_line drawn) -> exists r, (row_of (y_of a) ys r /\ shows d "y" r l) \/ (row_of (u_of b) us r /\ shows d' "u" r l)) /\
          (forall r, row_of (y_of a) ys r -> exists l, In l (every_line drawn) /\ shows d "y" r l) /\
          (forall r, row_of (u_of b) us r -> exists l, In l (every_line drawn) /\ shows d' "u" r l) /\
          (forall f ls, In (f, ls) drawn -> f = Numbered 0).
  Proof.
    intros g out H. destruct (connections_ok _ _ _ H) as [L I]. split; [exact L|]. intros j a b ys us drawn H1 H2.
    specialize (I j a b ys us drawn H1 H2). unfold draw_connection in I.
    destruct (draw_end re results a "y" (find_syms ys (y_of a)) (0 + j)) as [l|x] eqn:E1; [|discriminate].
    destruct (draw_end re results b "u" (find_syms us (u_of b)) (0 + j)) as [l'|x] eqn:E2; [|discriminate]. injection I as <-.
    destruct (end_ok _ _ _ _ _ _ E1) as [d [ls [D1 [-> [_ [A1 A2]]]]]]. destruct (end_ok _ _ _ _ _ _ E2) as [d' [ls' [D2 [-> [_ [B1 B2]]]]]].
    exists d, d'. unfold every_line. cbn [app flat_map snd]. rewrite app_nil_r.
    split; [exact D1|]. split; [exact D2|]. split; [|split; [|split]].
    - intros l Hl. apply in_app_iff in Hl. destruct Hl as [Hl|Hl]; [destruct (A1 l Hl) as [r R]|destruct (B1 l Hl) as [r R]]; exists r; tauto.
    - intros r Hr. destruct (A2 r Hr) as [l [Hl S]]. exists l. split; [apply in_app_iff; tauto|exact S].
    - intros r Hr. destruct (B2 r Hr) as [l [Hl S]]. exists l. split; [apply in_app_iff; tauto|exact S].
    - intros f l [E|[E|[]]]; injection E as <- _; reflexivity.
  Qed.
  Lemma c97_accepted : forall g, (exists out, plot_all_relaxations re results y_of u_of g = Ok out) <->
      (forall a b ys us, In (a, b, (ys, us)) (edges g) -> exists d d', data_of results a d /\ data_of results b d' /\
        has_rows d "y" (y_of a) ys /\ has_rows d' "u" (u_of b) us).
  Proof.
    intros g. unfold plot_all_relaxations. generalize 0 as k. induction (edges g) as [|[[a b] [ys us]] cs IH]; intros k; cbn [draw_connections].
    - split; [intros _ a b ys us []|intros _; exists []; reflexivity].
    - split.
      + intros [out H]. unfold draw_connection in H.
        destruct (draw_end re results a "y" (find_syms ys (y_of a)) k) as [l|x] eqn:E1; [|discriminate].
        destruct (draw_end re results b "u" (find_syms us (u_of b)) k) as [l'|x] eqn:E2; [|discriminate].
        destruct (draw_connections re results y_of u_of (S k) cs) as [ls|x] eqn:E'; [|discriminate].
        destruct (end_ok _ _ _ _ _ _ E1) as [d [m [D1 [_ [R1 _]]]]]. destruct (end_ok _ _ _ _ _ _ E2) as [d' [m' [D2 [_ [R2 _]]]]].
        intros a' b' ys' us' [E|Hin].
        * injection E as <- <- <- <-. exists d, d'. tauto.
        * exact (proj1 (IH (S k)) (ex_intro _ ls E') a' b' ys' us' Hin).
      + intros A. destruct (A a b ys us (or_introl eq_refl)) as [d [d' [D1 [D2 [R1 R2]]]]]. unfold draw_connection.
        destruct (end_draws a "y" ys (y_of a) k d D1 R1) as [l ->]. destruct (end_draws b "u" us (u_of b) k d' D2 R2) as [l' ->].
        destruct (proj2 (IH (S k)) (fun a' b' ys' us' H => A a' b' ys' us' (or_intror H))) as [ls ->]. eexists. reflexivity.
  Qed.
End Relaxations.

Lemma pipes_good : forall a d, data_of pipe_results a d -> labelled d.
Proof.
  intros a d H. unfold data_of, pipe_results in H. cbn in H.
  assert (E : exists q, d = pipe_data q).
  { destruct a as [|[|[|a]]]; cbn in H; try discriminate; injection H as <-; eexists; reflexivity. }
  destruct E as [q ->]. intros k e Hk. unfold look, pipe_data in Hk. cbn in Hk. destruct (k =? "y")%string; [injection Hk as <-; right; reflexivity|].
  destruct (k =? "u")%string; [injection Hk as <-; right; reflexivity|discriminate].
Qed.

(** ** The data set of a result *)

Section Kept.
  Variable default : string -> nat -> string.
  Let run := run_caught (kept_step default).
  Lemma kept_result : forall ops s, k_result (run ops s) = assigned ops (k_result s).
  Proof.
    unfold run, run_caught, assigned. induction ops as [|o ops IH]; intros s; [reflexivity|]. cbn [fold_left]. rewrite IH. f_equal.
    destruct o as [f| |c]; cbn [kept_step fst k_result]; [reflexivity| |]; unfold get_dataset;
      (destruct (k_dataset s); [reflexivity|destruct (to_dataset default (k_result s)); reflexivity]).
  Qed.
  Lemma kept_on : forall ops s d, k_dataset s = Some d -> k_dataset (run ops s) = Some (run_caught (data_step default) (calls ops) d).
  Proof.
    unfold run, run_caught. induction ops as [|o ops IH]; intros s d H; [exact H|]. cbn [fold_left].
    destruct o as [f| |c]; cbn [calls flat_map app fold_left].
    - apply IH. exact H.
    - apply IH. cbn [kept_step]. unfold get_dataset. rewrite H. exact H.
    - rewrite (IH _ (fst (data_step default c d))); [reflexivity|]. cbn [kept_step]. unfold get_dataset. rewrite H. reflexivity.
  Qed.
  Lemma kept_first : forall r pre o post d, k_dataset (run pre (mkKept r None)) = None -> reads o -> to_dataset default (assigned pre r) = Ok d ->
      k_dataset (run (pre ++ o :: post) (mkKept r None)) = Some (run_caught (data_step default) (calls (o :: post)) d).
  Proof.
    intros r pre o post d N R T. unfold run, run_caught in *. rewrite fold_left_app. cbn [fold_left].
    pose proof (kept_result pre (mkKept r None)) as K. unfold run, run_caught in K. cbn [k_result] in K.
    set (s := fold_left _ pre _) in *. rewrite <- K in T.
    destruct o as [f| |c]; [destruct R| |].
    - pose proof (kept_on post (fst (kept_step default Ask s)) d) as G. unfold run, run_caught in G. rewrite G; [reflexivity|].
      cbn [kept_step]. unfold get_dataset. rewrite N, T. reflexivity.
    - pose proof (kept_on post (fst (kept_step default (Call c) s)) (fst (data_step default c d))) as G. unfold run, run_caught in G. rewrite G; [reflexivity|].
      cbn [kept_step]. unfold get_dataset. rewrite N, T. reflexivity.
  Qed.
  Lemma kept_none : forall ops r, k_dataset (run ops (mkKept r None)) = None <->
      (forall i o, nth_error ops i = Some o -> reads o -> exists x, to_dataset default (assigned (firstn i ops) r) = Raise x).
  Proof.
    unfold run, run_caught. induction ops as [|o ops IH]; intros r; [split; [intros _ [|i] o; discriminate|reflexivity]|]. cbn [fold_left].
    assert (Step : forall r', fst (kept_step default o (mkKept r None)) = mkKept r' None -> r' = assigned [o] r ->
        (k_dataset (fold_left (fun s o => fst (kept_step default o s)) ops (fst (kept_step default o (mkKept r None)))) = None <->
         forall i o', nth_error ops i = Some o' -> reads o' -> exists x, to_dataset default (assigned (firstn (S i) (o :: ops)) r) = Raise x)).
    { intros r' E ->. rewrite E. rewrite IH. cbn [firstn]. tauto. }
    assert (Rest : (forall i o', nth_error (o :: ops) i = Some o' -> reads o' -> exists x, to_dataset default (assigned (firstn i (o :: ops)) r) = Raise x) <->
        (reads o -> exists x, to_dataset default r = Raise x) /\
        (forall i o', nth_error ops i = Some o' -> reads o' -> exists x, to_dataset default (assigned (firstn (S i) (o :: ops)) r) = Raise x)).
    { split.
      - intros H. split; [exact (H 0 o eq_refl)|]. intros i o' Hi. exact (H (S i) o' Hi).
      - intros [H1 H2] [|i] o' Hi; [injection Hi as <-; exact H1|exact (H2 i o' Hi)]. }
    rewrite Rest. clear Rest. destruct o as [f| |c].
    - rewrite (Step (f r) eq_refl eq_refl). cbn [reads]. tauto.
    - destruct (to_dataset default r) as [d|x] eqn:T.
      + pose proof (kept_on ops (fst (kept_step default Ask (mkKept r None))) d) as G. unfold run, run_caught in G. rewrite G; [|cbn [kept_step]; unfold get_dataset; cbn [k_dataset k_result]; rewrite T; reflexivity].
        split; [discriminate|]. intros [H _]. destruct (H I) as [x E]. discriminate.
      + rewrite (Step r); [|cbn [kept_step]; unfold get_dataset; cbn [k_dataset k_result]; rewrite T; reflexivity|reflexivity]. split; [intros H; split; [intros _; exists x; reflexivity|exact H]|tauto].
    - destruct (to_dataset default r) as [d|x] eqn:T.
      + pose proof (kept_on ops (fst (kept_step default (Call c) (mkKept r None))) (fst (data_step default c d))) as G. unfold run, run_caught in G.
        rewrite G; [|cbn [kept_step]; unfold get_dataset; cbn [k_dataset k_result]; rewrite T; reflexivity].
        split; [discriminate|]. intros [H _]. destruct (H I) as [x E]. discriminate.
      + rewrite (Step r); [|cbn [kept_step]; unfold get_dataset; cbn [k_dataset k_result]; rewrite T; reflexivity|reflexivity]. split; [intros H; split; [intros _; exists x; reflexivity|exact H]|tauto].
  Qed.
End Kept.

Lemma c98_kept : forall default r pre o post d,
    (forall i p, nth_error pre i = Some p -> reads p -> exists x, to_dataset default (assigned (firstn i pre) r) = Raise x) ->
    reads o -> to_dataset default (assigned pre r) = Ok d ->
    snd (get_dataset default (run_caught (kept_step default) (pre ++ o :: post) (mkKept r None))) = Ok (run_caught (data_step default) (calls (o :: post)) d).
Proof.
  intros default r pre o post d F R T. apply (kept_none default) in F. pose proof (kept_first default r pre o post d F R T) as G.
  unfold get_dataset. rewrite G. reflexivity.
Qed.
Lemma c98_failed : forall default r ops,
    (forall i p, nth_error ops i = Some p -> reads p -> exists x, to_dataset default (assigned (firstn i ops) r) = Raise x) ->
    snd (get_dataset default (run_caught (kept_step default) ops (mkKept r None))) = to_dataset default (assigned ops r).
Proof.
  intros default r ops F. apply (kept_none default) in F. unfold get_dataset. rewrite F, (kept_result default ops (mkKept r None)). cbn [k_result].
  destruct (to_dataset default (assigned ops r)); reflexivity.
Qed.
Lemma c98_result : forall default r ops, k_result (run_caught (kept_step default) ops (mkKept r None)) = assigned ops r.
Proof. intros default r ops. exact (kept_result default ops (mkKept r None)). Qed.
Lemma c97_own : exists re results y_of u_of g out drawn,
  (forall a d, data_of results a d -> labelled d) /\
  plot_all_relaxations re results y_of u_of g = Ok out /\ nth_error out 1 = Some drawn /\
  every_line drawn <> [] /\ forall f ls, In (f, ls) drawn -> f <> Numbered 1 /\ f <> Given 1.
Proof.
  exists begins, pipe_results, pipe_y, pipe_u, pipes. eexists. eexists. split; [exact pipes_good|]. split; [reflexivity|]. split; [reflexivity|].
  split; [discriminate|]. intros f ls [E|[E|[]]]; injection E as <- _; split; discriminate.
Qed.
Lemma c98_current : exists default r f d d',
  snd (get_dataset default (run_caught (kept_step default) [Ask; Assign f] (mkKept r None))) = Ok d /\
  to_dataset default (assigned [Ask; Assign f] r) = Ok d' /\ d <> d'.
Proof. exists plain_name, (a_run 1 1%Q), (fun _ => a_run 1 9%Q). eexists. eexists. split; [reflexivity|]. split; [reflexivity|discriminate]. Qed.

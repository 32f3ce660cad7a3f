(** Proofs about sweeps over the nodes of a network. *)
From Coq Require Import String Permutation.
From Verif Require Import Base UtilModel ExprModel SysModel NlpModel DiscModel ResModel NetModel BaseProofs.
From Verif Require Import DalModel DalSpec.
Local Open Scope list_scope.

(** ** Theta depends on the neighbours' results only *)

Lemma last_values_ext : forall opts net d e a type i, result_of d a = result_of e a ->
  last_values opts net d a type i = last_values opts net e a type i.
Proof. intros opts net d e a type i H. unfold last_values. unfold result_of in H. rewrite H. reflexivity. Qed.

Lemma flat_map_ext_in {A B : Type} : forall (f g : A -> list B) l, (forall a, In a l -> f a = g a) ->
  flat_map f l = flat_map g l.
Proof.
  intros f g l. induction l as [|a l IH]; intros H; simpl; [reflexivity|].
  rewrite (H a (or_introl eq_refl)), IH; [reflexivity|]. intros b Hb. apply H. right. exact Hb.
Qed.

Lemma node_theta_ext : forall opts net d e a, (forall b, neighbour net a b -> result_of d b = result_of e b) ->
  node_theta opts net d a = node_theta opts net e a.
Proof.
  intros opts net d e a H. unfold node_theta. f_equal. f_equal.
  - apply flat_map_ext_in. intros [b c] Hb. unfold from_pred. apply map_ext. intros i.
    apply last_values_ext, H. left. apply (in_map fst) in Hb. exact Hb.
  - apply flat_map_ext_in. intros [b c] Hb. unfold from_succ. apply map_ext. intros i.
    apply last_values_ext, H. right. apply (in_map fst) in Hb. exact Hb.
Qed.

Lemma NoDup_app_l {A : Type} : forall l l' : list A, NoDup (l ++ l') -> NoDup l.
Proof.
  intros l l'. induction l as [|a l IH]; intros H; [constructor|]. simpl in H. inversion_clear H as [|? ? N ND].
  constructor; [|apply IH; exact ND]. intros X. apply N. apply in_or_app. left. exact X.
Qed.
Lemma NoDup_app_r {A : Type} : forall l l' : list A, NoDup (l ++ l') -> NoDup l'.
Proof. intros l l'. induction l as [|a l IH]; intros H; [exact H|]. simpl in H. inversion_clear H. apply IH. assumption. Qed.

Lemma memb_iff : forall a l, memb Nat.eqb a l = true <-> In a l.
Proof.
  intros a l. induction l as [|b l IH]; simpl; [split; [discriminate|tauto]|].
  destruct (Nat.eqb_spec a b) as [->|N]; simpl; [tauto|]. rewrite IH. split; [tauto|].
  intros [H|H]; [congruence|exact H].
Qed.
Lemma memb_out : forall a l, ~ In a l -> memb Nat.eqb a l = false.
Proof. intros a l H. destruct (memb Nat.eqb a l) eqn:E; [apply memb_iff in E; contradiction|reflexivity]. Qed.

Lemma result_dset : forall d a b r, result_of (dset Nat.eqb a r d) b = if Nat.eqb b a then Some r else result_of d b.
Proof.
  intros d a b r. unfold result_of. destruct (Nat.eqb_spec b a) as [->|N].
  - apply (dget_dset_same Nat.eqb Nat.eqb_eq).
  - apply (dget_dset_other Nat.eqb Nat.eqb_eq). congruence.
Qed.

Section Sweeps.
  Variable S : Type.
  Variable solve : addr -> S -> theta Q -> option (list Q) -> S * res node_result.
  Variables (opts : dal_options) (net : dnet).
  Notation dstate := (dstate S).
  Notation guess_of last a := (option_map nr_x (result_of last a)).

  Lemma warm_start_map : forall last a, warm_start last a = guess_of last a.
  Proof. intros last a. unfold warm_start, result_of. destruct (dget Nat.eqb a last); reflexivity. Qed.

  Lemma serial_node_cases : forall a found (s s' : dstate) found',
    solve_serial_node S solve opts net a found s = (s', Ok found') <->
    exists th r m, node_theta opts net (d_last S s) a = Ok th /\
      solve a (d_method S s a) th (guess_of (d_last S s) a) = (m, Ok r) /\
      s' = mkState S (if nr_success r then dset Nat.eqb a r (d_last S s) else d_last S s) (put a m (d_method S s)) /\
      found' = if nr_success r then dset Nat.eqb a r found else found.
  Proof.
    intros a found s s' found'. unfold solve_serial_node, reading, cbind, on_node.
    rewrite warm_start_map.
    destruct (node_theta opts net (d_last S s) a) as [th|e] eqn:Et.
    - destruct (solve a (d_method S s a) th (guess_of (d_last S s) a)) as [m [r|e]] eqn:Es.
      + split.
        * intros H. exists th, r, m. split; [reflexivity|]. split; [exact Es|].
          destruct (nr_success r); unfold cmodify, cret, set_last in H; simpl in H;
            injection H as <- <-; split; reflexivity.
        * intros [th' [r' [m' [H1 [H2 [H3 H4]]]]]].
          assert (th' = th) by congruence. subst th'. rewrite Es in H2.
          assert (r' = r) by congruence. assert (m' = m) by congruence. subst.
          destruct (nr_success r); reflexivity.
      + split; [discriminate|]. intros [th' [r' [m' [H1 [H2 _]]]]]. congruence.
    - split; [discriminate|]. intros [th' [r' [m' [H1 _]]]]. congruence.
  Qed.

  Lemma kept_last : forall (s : dstate) a r m b,
    let s1 := mkState S (if nr_success r then dset Nat.eqb a r (d_last S s) else d_last S s) (put a m (d_method S s)) in
    result_of (d_last S s1) b = if Nat.eqb b a then kept (result_of (d_last S s) a) r else result_of (d_last S s) b.
  Proof.
    intros s a r m b s1. unfold s1, kept. simpl. destruct (nr_success r).
    - apply result_dset.
    - destruct (Nat.eqb_spec b a) as [->|]; reflexivity.
  Qed.
  Lemma kept_found : forall found a r b,
    result_of (if nr_success r then dset Nat.eqb a r found else found) b =
    if Nat.eqb b a then kept (result_of found a) r else result_of found b.
  Proof.
    intros found a r b. unfold kept. destruct (nr_success r).
    - apply result_dset.
    - destruct (Nat.eqb_spec b a) as [->|]; reflexivity.
  Qed.

  Lemma serial_nodes_spec : forall l found (s s' : dstate) found', NoDup l ->
    solve_serial_nodes S solve opts net l found s = (s', Ok found') ->
    (forall a, ~ In a l -> result_of (d_last S s') a = result_of (d_last S s) a /\
                           d_method S s' a = d_method S s a /\ result_of found' a = result_of found a) /\
    (forall pre a post, l = pre ++ a :: post ->
       exists th r,
         (forall seen, (forall b, result_of seen b = if memb Nat.eqb b pre then result_of (d_last S s') b
                                                     else result_of (d_last S s) b) ->
                       node_theta opts net seen a = Ok th) /\
         solve a (d_method S s a) th (guess_of (d_last S s) a) = (d_method S s' a, Ok r) /\
         result_of (d_last S s') a = kept (result_of (d_last S s) a) r /\
         result_of found' a = kept (result_of found a) r).
  Proof.
    induction l as [|a0 l IH]; intros found s s' found' ND H.
    - simpl in H. unfold cret in H. injection H as <- <-. split.
      + intros a _. repeat split.
      + intros [|x pre] a post E; discriminate.
    - simpl in H. unfold cbind in H.
      destruct (solve_serial_node S solve opts net a0 found s) as [s1 [found1|e]] eqn:E1; [|discriminate].
      apply serial_node_cases in E1. destruct E1 as [th [r [m [Ht [Hs [Hs1 Hf1]]]]]].
      inversion_clear ND as [|? ? N0 ND'].
      destruct (IH found1 s1 s' found' ND' H) as [IHo IHi]. clear IH.
      assert (L1 : forall b, result_of (d_last S s1) b =
                             if Nat.eqb b a0 then kept (result_of (d_last S s) a0) r else result_of (d_last S s) b)
        by (intros b; rewrite Hs1; apply kept_last).
      assert (F1 : forall b, result_of found1 b =
                             if Nat.eqb b a0 then kept (result_of found a0) r else result_of found b)
        by (intros b; rewrite Hf1; apply kept_found).
      assert (M1 : forall b, d_method S s1 b = if Nat.eqb b a0 then m else d_method S s b)
        by (intros b; rewrite Hs1; reflexivity).
      split.
      + intros a Ha. assert (a <> a0 /\ ~ In a l) as [Na Nl] by (split; intros X; apply Ha; simpl; auto).
        destruct (IHo a Nl) as [A [B C]]. rewrite A, B, C, L1, M1, F1.
        destruct (Nat.eqb_spec a a0); [contradiction|]. repeat split.
      + intros [|x pre] a post E; simpl in E; injection E as -> ->.
        * destruct (IHo a N0) as [A [B C]]. exists th, r. split; [|split; [|split]].
          -- intros seen Hseen. rewrite <- Ht. apply node_theta_ext. intros b _. rewrite Hseen. reflexivity.
          -- rewrite Hs, B, M1, Nat.eqb_refl. reflexivity.
          -- rewrite A, L1, Nat.eqb_refl. reflexivity.
          -- rewrite C, F1, Nat.eqb_refl. reflexivity.
        * destruct (IHi pre a post eq_refl) as [th' [r' [H1 [H2 [H3 H4]]]]].
          assert (Na : a <> x).
          { intros ->. apply N0. apply in_or_app. right. left. reflexivity. }
          exists th', r'. rewrite L1 in H2, H3. rewrite M1 in H2. rewrite F1 in H4.
          destruct (Nat.eqb_spec a x) as [|_]; [contradiction|].
          split; [|split; [exact H2|split; [exact H3|exact H4]]].
          intros seen Hseen. apply H1. intros b. rewrite Hseen. simpl. rewrite L1.
          destruct (Nat.eqb_spec b x) as [->|Nb]; [|reflexivity].
          assert (Nx : ~ In x pre) by (intros X; apply N0; apply in_or_app; left; exact X).
          rewrite (memb_out _ _ Nx). simpl.
          destruct (IHo x N0) as [A _]. rewrite A, L1, Nat.eqb_refl. reflexivity.
  Qed.

  (** ** Unconnected nodes *)

  (** Each node solved with the results from before the sweep. *)
  Definition solved_from (s : dstate) (a : addr) (m : S) (r : node_result) : Prop :=
    exists th, node_theta opts net (d_last S s) a = Ok th /\
               solve a (d_method S s a) th (guess_of (d_last S s) a) = (m, Ok r).

  Lemma solved_from_det : forall s a m r m' r', solved_from s a m r -> solved_from s a m' r' -> m = m' /\ r = r'.
  Proof. intros s a m r m' r' [th [H1 H2]] [th' [H3 H4]]. split; congruence. Qed.

  Lemma serial_ok : forall l found (s : dstate), NoDup l -> unconnected net l ->
    (forall a, In a l -> exists m r, solved_from s a m r) ->
    exists s' found', solve_serial_nodes S solve opts net l found s = (s', Ok found').
  Proof.
    induction l as [|a l IH]; intros found s ND U H.
    - exists s, found. reflexivity.
    - inversion_clear ND as [|? ? N0 ND'].
      destruct (H a (or_introl eq_refl)) as [m [r [th [Ht Hs]]]].
      simpl. unfold cbind.
      destruct (solve_serial_node S solve opts net a found s) as [s1 r1] eqn:E1.
      assert (E2 : solve_serial_node S solve opts net a found s =
                   (mkState S (if nr_success r then dset Nat.eqb a r (d_last S s) else d_last S s) (put a m (d_method S s)),
                    Ok (if nr_success r then dset Nat.eqb a r found else found))).
      { apply serial_node_cases. exists th, r, m. repeat split; assumption. }
      rewrite E2 in E1. assert (r1 = Ok (if nr_success r then dset Nat.eqb a r found else found)) by congruence.
      assert (s1 = mkState S (if nr_success r then dset Nat.eqb a r (d_last S s) else d_last S s) (put a m (d_method S s)))
        by congruence. clear E1 E2. subst r1 s1.
      apply IH; [exact ND'| |].
      + intros x y Hx Hy. apply U; right; assumption.
      + intros b Hb. assert (Nb : b <> a) by (intros ->; contradiction).
        destruct (H b (or_intror Hb)) as [m' [r' [th' [Ht' Hs']]]].
        exists m', r', th'. split.
        * rewrite <- Ht'. apply node_theta_ext. intros c Hc. rewrite kept_last.
          destruct (Nat.eqb_spec c a) as [->|]; [|reflexivity].
          exfalso. apply (U b a); [right; exact Hb|left; reflexivity|exact Nb|exact Hc].
        * rewrite kept_last. simpl. unfold put. destruct (Nat.eqb_spec b a); [contradiction|]. exact Hs'.
  Qed.

  Lemma serial_unconnected : forall l found (s s' : dstate) found', NoDup l -> unconnected net l ->
    solve_serial_nodes S solve opts net l found s = (s', Ok found') ->
    forall a, In a l -> exists r, solved_from s a (d_method S s' a) r /\
      result_of (d_last S s') a = kept (result_of (d_last S s) a) r /\
      result_of found' a = kept (result_of found a) r.
  Proof.
    intros l found s s' found' ND U H a Ha.
    destruct (serial_nodes_spec l found s s' found' ND H) as [Ho Hi].
    apply in_split in Ha. destruct Ha as [pre [post ->]].
    destruct (Hi pre a post eq_refl) as [th [r [H1 [H2 [H3 H4]]]]].
    exists r. split; [|split; assumption].
    exists th. split; [|exact H2].
    assert (G : forall pre' : list addr, (forall b, In b pre' -> In b pre) ->
              exists seen : results, forall b, result_of seen b = if memb Nat.eqb b pre' then result_of (d_last S s') b
                                                                  else result_of (d_last S s) b).
    { clear H1. induction pre' as [|x pre' IHp]; intros Hp.
      - exists (d_last S s). reflexivity.
      - destruct IHp as [sn Hsn]; [intros b Hb; apply Hp; right; exact Hb|].
        destruct (result_of (d_last S s') x) as [rx|] eqn:Ex.
        + exists (dset Nat.eqb x rx sn). intros b. rewrite result_dset, Hsn. simpl.
          destruct (Nat.eqb_spec b x) as [->|]; simpl; [symmetry; exact Ex|reflexivity].
        + exists (filter (fun ar => negb (Nat.eqb (fst ar) x)) sn). intros b.
          assert (Hfl : forall d : results, result_of (filter (fun ar => negb (Nat.eqb (fst ar) x)) d) b =
                                  if Nat.eqb b x then None else result_of d b).
          { unfold result_of. induction d as [|[k v] d IHd]; simpl.
            - destruct (Nat.eqb b x); reflexivity.
            - destruct (Nat.eqb_spec k x) as [->|Nk]; simpl.
              + rewrite IHd. destruct (Nat.eqb_spec b x) as [->|]; reflexivity.
              + destruct (Nat.eqb_spec b k) as [->|Nb].
                * destruct (Nat.eqb_spec k x); [contradiction|reflexivity].
                * exact IHd. }
          rewrite Hfl, Hsn. clear Hfl. simpl. destruct (Nat.eqb_spec b x) as [->|]; simpl; [symmetry; exact Ex|reflexivity]. }
    destruct (G pre (fun b Hb => Hb)) as [sn Hsn].
    rewrite <- (H1 sn Hsn). apply node_theta_ext. intros b Hb. rewrite Hsn.
    destruct (memb Nat.eqb b pre) eqn:E; [|reflexivity].
    apply memb_iff in E. exfalso. apply (U a b).
    - apply in_or_app. right. left. reflexivity.
    - apply in_or_app. left. exact E.
    - intros ->. apply (NoDup_remove_2 _ _ _ ND). apply in_or_app. left. exact E.
    - exact Hb.
  Qed.

  Definition same_state (s s' : dstate) : Prop :=
    same_results (d_last S s) (d_last S s') /\ forall a, d_method S s a = d_method S s' a.

  Lemma serial_order : forall l l' (s s1 : dstate) f1, Permutation l l' -> NoDup l -> unconnected net l ->
    solve_serial_nodes S solve opts net l [] s = (s1, Ok f1) ->
    exists s2 f2, solve_serial_nodes S solve opts net l' [] s = (s2, Ok f2) /\
                  same_state s1 s2 /\ same_results f1 f2.
  Proof.
    intros l l' s s1 f1 P ND U H.
    assert (ND' : NoDup l') by (eapply Permutation_NoDup; eassumption).
    assert (U' : unconnected net l').
    { intros a b Ha Hb. apply U; eapply Permutation_in; try apply Permutation_sym; eassumption. }
    destruct (serial_ok l' [] s ND' U') as [s2 [f2 H2]].
    { intros a Ha. destruct (serial_unconnected l [] s s1 f1 ND U H a) as [r [Hr _]].
      - eapply Permutation_in; [apply Permutation_sym; exact P|exact Ha].
      - eexists; eexists; exact Hr. }
    exists s2, f2. split; [exact H2|].
    destruct (serial_nodes_spec _ _ _ _ _ ND H) as [O1 _].
    destruct (serial_nodes_spec _ _ _ _ _ ND' H2) as [O2 _].
    assert (All : forall a, result_of (d_last S s1) a = result_of (d_last S s2) a /\
                            d_method S s1 a = d_method S s2 a /\ result_of f1 a = result_of f2 a).
    { intros a. destruct (in_dec Nat.eq_dec a l) as [Ha|Ha].
      - destruct (serial_unconnected _ _ _ _ _ ND U H a Ha) as [r1 [A1 [B1 C1]]].
        destruct (serial_unconnected _ _ _ _ _ ND' U' H2 a (Permutation_in _ P Ha)) as [r2 [A2 [B2 C2]]].
        destruct (solved_from_det _ _ _ _ _ _ A1 A2) as [-> <-].
        rewrite B1, B2, C1, C2. repeat split.
      - assert (Ha' : ~ In a l') by (intros X; apply Ha; eapply Permutation_in; [apply Permutation_sym; exact P|exact X]).
        destruct (O1 a Ha) as [A1 [B1 C1]]. destruct (O2 a Ha') as [A2 [B2 C2]].
        rewrite A1, A2, B1, B2, C1, C2. repeat split. }
    split; [split|]; intros a; apply All.
  Qed.

  (** ** The parallel sweep *)

  Lemma call_all_spec : forall jobs (s : dstate) acc s' acc', NoDup (map fst jobs) ->
    call_all S solve jobs s acc = (s', acc') ->
    (forall a, In a (map fst jobs) -> ~ In a (dkeys acc)) ->
    d_last S s' = d_last S s /\
    (forall a, ~ In a (map fst jobs) -> d_method S s' a = d_method S s a) /\
    (forall a th g, In (a, (th, g)) jobs -> d_method S s' a = fst (solve a (d_method S s a) th g)) /\
    acc' = acc ++ map (fun j => (fst j, snd (solve (fst j) (d_method S s (fst j)) (fst (snd j)) (snd (snd j))))) jobs.
  Proof.
    induction jobs as [|[a [th g]] jobs IH]; intros s acc s' acc' ND H Hacc; simpl in H.
    - injection H as <- <-. rewrite app_nil_r. repeat split; try reflexivity. intros ? ? ? [].
    - unfold on_node in H. destruct (solve a (d_method S s a) th g) as [m r] eqn:Es.
      simpl in ND. inversion_clear ND as [|? ? N0 ND'].
      assert (Hs : dset Nat.eqb a r acc = acc ++ [(a, r)]).
      { apply (dset_notIn_app Nat.eqb Nat.eqb_eq). apply Hacc. left. reflexivity. }
      rewrite Hs in H.
      destruct (IH _ _ _ _ ND' H) as [A [B [C D]]].
      { intros b Hb X. unfold dkeys in X. rewrite map_app in X. apply in_app_or in X. destruct X as [X|X].
        - apply (Hacc b); [right; exact Hb|exact X].
        - simpl in X. destruct X as [<-|[]]. contradiction. }
      simpl in A. split; [exact A|]. split; [|split].
      + intros b Hb. rewrite B by (intros X; apply Hb; right; exact X). simpl. unfold put.
        destruct (Nat.eqb_spec b a) as [->|]; [exfalso; apply Hb; left; reflexivity|reflexivity].
      + intros b th' g' [E|Hin].
        * injection E as <- <- <-. rewrite Es. rewrite B by exact N0. simpl. unfold put. rewrite Nat.eqb_refl. reflexivity.
        * rewrite (C b th' g' Hin). simpl. unfold put.
          destruct (Nat.eqb_spec b a) as [->|]; [|reflexivity].
          exfalso. apply N0. apply (in_map fst) in Hin. exact Hin.
      + rewrite D, <- app_assoc. simpl. rewrite Es. simpl. f_equal. f_equal.
        apply map_ext_in. intros [b [th' g']] Hin. simpl. unfold put.
        destruct (Nat.eqb_spec b a) as [->|]; [|reflexivity].
        exfalso. apply N0. apply (in_map fst) in Hin. exact Hin.
  Qed.

  Lemma read_all_inv {A : Type} : forall (l : dict addr (res A)) d,
    read_all l = Ok d -> l = map (fun ar => (fst ar, Ok (snd ar))) d.
  Proof.
    induction l as [|[a [r|e]] l IH]; intros d; simpl; [|destruct (read_all l) as [d'|e]|]; intros H; try discriminate.
    - injection H as <-. reflexivity.
    - injection H as <-. simpl. rewrite (IH d' eq_refl) at 1. reflexivity.
  Qed.
  Lemma read_all_map {A B : Type} : forall (k : B -> addr) (v : B -> A) l,
    read_all (map (fun b => (k b, Ok (v b))) l) = Ok (map (fun b => (k b, v b)) l).
  Proof. intros k v l. induction l; simpl; [reflexivity|]. rewrite IHl. reflexivity. Qed.

  Lemma res_map_F2 {A B : Type} : forall (f : A -> res B) l r, res_map f l = Ok r -> Forall2 (fun a b => f a = Ok b) l r.
  Proof.
    intros f l. induction l as [|a l IH]; intros r H; simpl in H.
    - injection H as <-. constructor.
    - destruct (f a) as [b|e] eqn:E; [|discriminate]. destruct (res_map f l) as [bs|e]; [|discriminate].
      injection H as <-. constructor; [exact E|]. apply IH. reflexivity.
  Qed.
  Lemma res_map_fun {A B : Type} : forall (f : A -> res B) g l, (forall a, In a l -> f a = Ok (g a)) ->
    res_map f l = Ok (map g l).
  Proof.
    intros f g l. induction l as [|a l IH]; intros H; simpl; [reflexivity|].
    rewrite H by (left; reflexivity). rewrite IH; [reflexivity|]. intros b Hb. apply H. right. exact Hb.
  Qed.

  Lemma result_update : forall e d a, NoDup (map fst e) ->
    result_of (dupdate Nat.eqb d e) a = match result_of e a with Some r => Some r | None => result_of d a end.
  Proof.
    induction e as [|[b r] e IH]; intros d a ND; [reflexivity|].
    simpl in ND. inversion_clear ND as [|? ? N0 ND']. unfold dupdate. simpl.
    fold (dupdate Nat.eqb (dset Nat.eqb b r d) e). rewrite IH by exact ND'.
    rewrite result_dset. unfold result_of at 3. simpl. destruct (Nat.eqb_spec a b) as [->|]; [|reflexivity].
    replace (result_of e b) with (@None node_result); [reflexivity|].
    symmetry. apply (dget_None Nat.eqb Nat.eqb_eq). exact N0.
  Qed.
  Lemma filter_NoDup_fst : forall (f : addr * node_result -> bool) e, NoDup (map fst e) -> NoDup (map fst (filter f e)).
  Proof.
    intros f e. induction e as [|x e IH]; simpl; intros ND; [constructor|]. inversion_clear ND as [|? ? N0 ND'].
    destruct (f x); simpl; [|apply IH; exact ND']. constructor; [|apply IH; exact ND'].
    intros X. apply N0. apply in_map_iff in X. destruct X as [y [E Y]]. apply filter_In in Y.
    rewrite <- E. apply in_map, Y.
  Qed.
  Lemma result_filter : forall e a, NoDup (map fst e) ->
    result_of (filter (fun ar => nr_success (snd ar)) e) a =
    match result_of e a with Some r => if nr_success r then Some r else None | None => None end.
  Proof.
    unfold result_of. induction e as [|[b r] e IH]; intros a ND; [reflexivity|].
    simpl in ND. inversion_clear ND as [|? ? N0 ND']. simpl.
    destruct (nr_success r) eqn:Er; simpl.
    - destruct (Nat.eqb_spec a b); [rewrite Er; reflexivity|]. apply IH. exact ND'.
    - rewrite IH by exact ND'. destruct (Nat.eqb_spec a b) as [->|]; [|reflexivity].
      rewrite Er. replace (dget Nat.eqb b e) with (@None node_result); [reflexivity|].
      symmetry. apply (dget_None Nat.eqb Nat.eqb_eq). exact N0.
  Qed.
  Lemma result_successes : forall e d a, NoDup (map fst e) ->
    result_of (dupdate Nat.eqb d (filter (fun ar => nr_success (snd ar)) e)) a =
    match result_of e a with Some r => kept (result_of d a) r | None => result_of d a end.
  Proof.
    intros e d a ND. rewrite result_update by (apply filter_NoDup_fst; exact ND). rewrite result_filter by exact ND.
    unfold kept. destruct (result_of e a) as [r|]; [|reflexivity]. destruct (nr_success r); reflexivity.
  Qed.

  Lemma jobs_keys : forall last b jobs, res_map (job_of opts net last) b = Ok jobs -> map fst jobs = b.
  Proof.
    intros last b jobs H. apply res_map_F2 in H. induction H as [|a j l js H _ IH]; [reflexivity|].
    simpl. rewrite IH. unfold job_of in H. destruct (node_theta opts net last a); [|discriminate].
    injection H as <-. reflexivity.
  Qed.
  Lemma jobs_in : forall last b jobs a, res_map (job_of opts net last) b = Ok jobs -> In a b ->
    exists th, node_theta opts net last a = Ok th /\ In (a, (th, guess_of last a)) jobs.
  Proof.
    intros last b jobs a H Ha. apply res_map_F2 in H. induction H as [|c j l js H _ IH]; [destruct Ha|].
    destruct Ha as [->|Ha].
    - unfold job_of in H. destruct (node_theta opts net last a) as [th|]; [|discriminate].
      injection H as <-. exists th. split; [reflexivity|]. left. rewrite warm_start_map. reflexivity.
    - destruct (IH Ha) as [th [H1 H2]]. exists th. split; [exact H1|]. right. exact H2.
  Qed.

  Lemma block_spec : forall b found (s s' : dstate) found', NoDup b ->
    solve_distributed_block S solve opts net b found s = (s', Ok found') ->
    d_last S s' = d_last S s /\
    (forall a, ~ In a b -> d_method S s' a = d_method S s a /\ result_of found' a = result_of found a) /\
    (forall a, In a b -> exists r, solved_from s a (d_method S s' a) r /\
                                   result_of found' a = kept (result_of found a) r).
  Proof.
    intros b found s s' found' ND H. unfold solve_distributed_block, reading in H. unfold cbind at 1 in H.
    destruct (res_map (job_of opts net (d_last S s)) b) as [jobs|e] eqn:Ej; [|discriminate].
    unfold cbind in H. destruct (call_all S solve jobs s []) as [s1 acc] eqn:Ec.
    destruct (read_all acc) as [rs|e] eqn:Er; [|discriminate].
    unfold cret in H. assert (s1 = s') by congruence. subst s1.
    assert (Hf : found' = dupdate Nat.eqb found (filter (fun ar => nr_success (snd ar)) rs)) by congruence. clear H.
    pose proof (jobs_keys _ _ _ Ej) as Hk.
    destruct (call_all_spec jobs s [] s' acc) as [A [B [C D]]]; [rewrite Hk; exact ND|exact Ec|intros ? ? []|].
    apply read_all_inv in Er. simpl in D. rewrite D in Er.
    assert (Hrk : map fst rs = b).
    { rewrite <- Hk. transitivity (map fst (map (fun ar : addr * node_result => (fst ar, Ok (snd ar))) rs)).
      - rewrite map_map. reflexivity.
      - rewrite <- Er, map_map. reflexivity. }
    assert (NDr : NoDup (map fst rs)) by (rewrite Hrk; exact ND).
    split; [exact A|]. split.
    - intros a Ha. split; [apply B; rewrite Hk; exact Ha|].
      rewrite Hf, result_successes by exact NDr.
      replace (result_of rs a) with (@None node_result); [reflexivity|].
      symmetry. apply (dget_None Nat.eqb Nat.eqb_eq). rewrite <- Hrk in Ha. exact Ha.
    - intros a Ha. destruct (jobs_in _ _ _ _ Ej Ha) as [th [Ht Hin]].
      assert (Hx : In (a, snd (solve a (d_method S s a) th (guess_of (d_last S s) a)))
                      (map (fun ar : addr * node_result => (fst ar, Ok (snd ar))) rs)).
      { rewrite <- Er. apply in_map_iff. eexists. split; [|exact Hin]. reflexivity. }
      apply in_map_iff in Hx. destruct Hx as [[a' r] [Ex Hr]]. simpl in Ex. injection Ex as -> Ex.
      exists r. split.
      + exists th. split; [exact Ht|]. rewrite (C a th _ Hin).
        destruct (solve a (d_method S s a) th (guess_of (d_last S s) a)) as [m q]. simpl in *. congruence.
      + rewrite Hf, result_successes by exact NDr.
        replace (result_of rs a) with (Some r); [reflexivity|].
        symmetry. apply (In_dget Nat.eqb Nat.eqb_eq); [exact NDr|exact Hr].
  Qed.

  Lemma block_ok : forall b found (s : dstate), NoDup b -> (forall a, In a b -> exists m r, solved_from s a m r) ->
    exists s' found', solve_distributed_block S solve opts net b found s = (s', Ok found').
  Proof.
    intros b found s ND H. unfold solve_distributed_block, reading. unfold cbind at 1.
    destruct (res_map (job_of opts net (d_last S s)) b) as [jobs|e] eqn:Ej.
    - pose proof (jobs_keys _ _ _ Ej) as Hk.
      unfold cbind. destruct (call_all S solve jobs s []) as [s1 acc] eqn:Ec.
      destruct (call_all_spec jobs s [] s1 acc) as [A [B [C D]]]; [rewrite Hk; exact ND|exact Ec|intros ? ? []|].
      simpl in D.
      assert (R : exists rs, read_all acc = Ok rs).
      { rewrite D. clear D Ec A B C.
        assert (Hj : forall j, In j jobs -> exists r, snd (solve (fst j) (d_method S s (fst j)) (fst (snd j)) (snd (snd j))) = Ok r).
        { intros [a [th g]] Hin. simpl.
          assert (Ha : In a b) by (rewrite <- Hk; apply (in_map fst) in Hin; exact Hin).
          destruct (jobs_in _ _ _ _ Ej Ha) as [th' [Ht' Hin']].
          assert (E : (th, g) = (th', guess_of (d_last S s) a)).
          { assert (NDj : NoDup (map fst jobs)) by (rewrite Hk; exact ND).
            clear - Hin Hin' NDj. induction jobs as [|j js IH]; [destruct Hin|].
            simpl in NDj. inversion_clear NDj as [|? ? N0 N1].
            destruct Hin as [->|Hin]; destruct Hin' as [E|Hin'].
            - congruence.
            - exfalso. apply N0. apply (in_map fst) in Hin'. exact Hin'.
            - subst j. exfalso. apply N0. apply (in_map fst) in Hin. exact Hin.
            - apply IH; assumption. }
          injection E as -> ->.
          destruct (H a Ha) as [m [r [th'' [E1 E2]]]].
          assert (th'' = th') by congruence. subst th''. rewrite E2. exists r. reflexivity. }
        clear - Hj. induction jobs as [|j js IH]; simpl; [exists []; reflexivity|].
        destruct (Hj j (or_introl eq_refl)) as [r ->].
        destruct IH as [rs ->]; [intros k Hk; apply Hj; right; exact Hk|]. eexists. reflexivity. }
      destruct R as [rs ->]. eexists. eexists. reflexivity.
    - exfalso. assert (X : exists jobs, res_map (job_of opts net (d_last S s)) b = Ok jobs).
      { clear - H. induction b as [|a b IH]; simpl; [exists []; reflexivity|].
        destruct (H a (or_introl eq_refl)) as [m [r [th [E1 E2]]]]. unfold job_of at 1. rewrite E1.
        destruct IH as [js ->]; [intros c Hc; apply H; right; exact Hc|]. eexists. reflexivity. }
      destruct X as [jobs X]. congruence.
  Qed.

  Lemma solved_from_ext : forall s s1 a m r, d_last S s1 = d_last S s -> d_method S s1 a = d_method S s a ->
    solved_from s1 a m r <-> solved_from s a m r.
  Proof. intros s s1 a m r H1 H2. unfold solved_from. rewrite H1, H2. tauto. Qed.

  Lemma distributed_spec : forall bs found (s s' : dstate) found', NoDup (concat bs) ->
    solve_distributed_blocks S solve opts net bs found s = (s', Ok found') ->
    d_last S s' = d_last S s /\
    (forall a, ~ In a (concat bs) -> d_method S s' a = d_method S s a /\ result_of found' a = result_of found a) /\
    (forall a, In a (concat bs) -> exists r, solved_from s a (d_method S s' a) r /\
                                   result_of found' a = kept (result_of found a) r).
  Proof.
    induction bs as [|b bs IH]; intros found s s' found' ND H; simpl in H.
    - unfold cret in H. injection H as <- <-. repeat split; try reflexivity. intros a [].
    - unfold cbind in H. destruct (solve_distributed_block S solve opts net b found s) as [s1 [f1|e]] eqn:E; [|discriminate].
      simpl in ND. pose proof (NoDup_app_l _ _ ND) as ND1. pose proof (NoDup_app_r _ _ ND) as ND2.
      assert (Dis : forall a, In a b -> ~ In a (concat bs)).
      { intros a Ha Hb. apply in_split in Ha. destruct Ha as [l1 [l2 ->]]. rewrite <- app_assoc in ND. simpl in ND.
        apply NoDup_remove_2 in ND. apply ND. apply in_or_app. right. apply in_or_app. right. exact Hb. }
      destruct (block_spec _ _ _ _ _ ND1 E) as [A [B C]].
      destruct (IH _ _ _ _ ND2 H) as [A' [B' C']].
      split; [congruence|]. split.
      + intros a Ha. assert (~ In a b /\ ~ In a (concat bs)) as [X Y]
          by (split; intros Z; apply Ha; simpl; apply in_or_app; auto).
        destruct (B a X) as [B1 B2]. destruct (B' a Y) as [B3 B4]. split; congruence.
      + intros a Ha. simpl in Ha. apply in_app_or in Ha. destruct Ha as [Ha|Ha].
        * destruct (C a Ha) as [r [C1 C2]]. destruct (B' a (Dis a Ha)) as [B3 B4].
          exists r. rewrite B3, B4. split; assumption.
        * destruct (C' a Ha) as [r [C1 C2]].
          assert (Hb : ~ In a b) by (intros X; apply (Dis a X Ha)).
          destruct (B a Hb) as [B1 B2]. exists r. rewrite B2 in C2. split; [|exact C2].
          apply (solved_from_ext s s1 a _ _ A B1). exact C1.
  Qed.

  Lemma distributed_ok : forall bs found (s : dstate), NoDup (concat bs) ->
    (forall a, In a (concat bs) -> exists m r, solved_from s a m r) ->
    exists s' found', solve_distributed_blocks S solve opts net bs found s = (s', Ok found').
  Proof.
    induction bs as [|b bs IH]; intros found s ND H; simpl.
    - exists s, found. reflexivity.
    - simpl in ND. pose proof (NoDup_app_l _ _ ND) as ND1. pose proof (NoDup_app_r _ _ ND) as ND2.
      destruct (block_ok b found s ND1) as [s1 [f1 E]].
      { intros a Ha. apply H. simpl. apply in_or_app. left. exact Ha. }
      unfold cbind. rewrite E. apply IH; [exact ND2|].
      destruct (block_spec _ _ _ _ _ ND1 E) as [A [B _]].
      intros a Ha. destruct (H a) as [m [r Hr]]; [simpl; apply in_or_app; right; exact Ha|].
      exists m, r. apply (solved_from_ext s s1 a m r A); [|exact Hr].
      apply B. intros X. apply in_split in X. destruct X as [l1 [l2 ->]]. rewrite <- app_assoc in ND. simpl in ND.
      apply NoDup_remove_2 in ND. apply ND. apply in_or_app. right. apply in_or_app. right. exact Ha.
  Qed.

  (** ** Serial and parallel *)

  Lemma serial_is_parallel : forall bs (s : dstate), NoDup (concat bs) -> unconnected net (concat bs) ->
    (forall s1 f1, solve_serial S solve opts net bs s = (s1, Ok f1) ->
       exists s2 f2, solve_distributed S solve opts net bs s = (s2, Ok f2) /\
         same_results f1 f2 /\ (forall a, d_method S s1 a = d_method S s2 a)) /\
    (forall s2 f2, solve_distributed S solve opts net bs s = (s2, Ok f2) ->
       exists s1 f1, solve_serial S solve opts net bs s = (s1, Ok f1) /\
         same_results f1 f2 /\ (forall a, d_method S s1 a = d_method S s2 a)).
  Proof.
    intros bs s ND U. unfold solve_serial, solve_distributed.
    assert (Both : forall s1 f1 s2 f2, solve_serial_nodes S solve opts net (concat bs) [] s = (s1, Ok f1) ->
              solve_distributed_blocks S solve opts net bs [] s = (s2, Ok f2) ->
              same_results f1 f2 /\ (forall a, d_method S s1 a = d_method S s2 a)).
    { intros s1 f1 s2 f2 H1 H2.
      destruct (serial_nodes_spec _ _ _ _ _ ND H1) as [O1 _].
      destruct (distributed_spec _ _ _ _ _ ND H2) as [_ [O2 I2]].
      assert (All : forall a, d_method S s1 a = d_method S s2 a /\ result_of f1 a = result_of f2 a).
      { intros a. destruct (in_dec Nat.eq_dec a (concat bs)) as [Ha|Ha].
        - destruct (serial_unconnected _ _ _ _ _ ND U H1 a Ha) as [r1 [A1 [_ C1]]].
          destruct (I2 a Ha) as [r2 [A2 C2]].
          destruct (solved_from_det _ _ _ _ _ _ A1 A2) as [-> <-]. rewrite C1, C2. split; reflexivity.
        - destruct (O1 a Ha) as [_ [B1 C1]]. destruct (O2 a Ha) as [B2 C2]. split; congruence. }
      split; intros a; apply All. }
    split.
    - intros s1 f1 H1. destruct (distributed_ok bs [] s ND) as [s2 [f2 H2]].
      { intros a Ha. destruct (serial_unconnected _ _ _ _ _ ND U H1 a Ha) as [r [A _]]. eexists; eexists; exact A. }
      exists s2, f2. split; [exact H2|]. exact (Both _ _ _ _ H1 H2).
    - intros s2 f2 H2. destruct (serial_ok (concat bs) [] s ND U) as [s1 [f1 H1]].
      { intros a Ha. destruct (distributed_spec _ _ _ _ _ ND H2) as [_ [_ I2]].
        destruct (I2 a Ha) as [r [A _]]. eexists; eexists; exact A. }
      exists s1, f1. split; [exact H1|]. exact (Both _ _ _ _ H1 H2).
  Qed.
End Sweeps.

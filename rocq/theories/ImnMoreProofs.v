(** Further proofs about intermediary nodes: the options that change what an update does. *)
From Coq Require Import String Qabs Lqa Lia.
From Verif Require Import Base UtilModel ExprModel SimModel DiscModel AugModel BaseProofs UtilProofs.
From Verif Require Import ImnModel ImnSpec ImnProofs.
Local Open Scope list_scope.

(** What an update does with the new multipliers. *)
Definition tilde_step (opts : al_options) (new : dict nat (list Q * list Q)) (errors : list Q) : cmd imn unit :=
  if al_skip_nu opts then cret tt
  else fun s =>
         match st_last (im_state s) with
         | Some last =>
             if (al_improve opts && existsb (fun e => negb (Qle_bool e 0)) errors)%bool
             then crun (fun iel => imn_improvement new (fst iel) (fst (snd iel)) (snd (snd iel)))
                       (combine (seq 0 (length errors)) (combine errors last)) s
             else (set_im_tilde (Some new) s, Ok tt)
         | None => (set_im_tilde (Some new) s, Ok tt)
         end.

Lemma imn_core : forall opts th p s mu y u n1 n2 v raw,
  1 <= al_degree opts -> 1 <= al_elements opts ->
  al_skip_compute opts = false ->
  In (al_rule opts) ["constant"; "primal"; "primal-dual"; "bounded-increase"]%string ->
  holds (al_degree opts) (al_elements opts) [y; u] th ->
  holds (al_degree opts) (al_elements opts) [n1; n2] (st_nu (im_state s)) ->
  nth_error (match p with Some v => v | None => [] end ++ st_mu (im_state s)) 0 = Some mu ->
  raw = by_points (al_degree opts) (al_elements opts) v ->
  exists e1 e2 new,
    largest (al_degree opts) (al_elements opts) (fun el j => v el j - y el j)%Q e1 /\
    largest (al_degree opts) (al_elements opts) (fun el j => u el j - v el j)%Q e2 /\
    (forall el, el < al_elements opts ->
      dget Nat.eqb el new =
      Some (map (fun j => n1 el j + mu * (v el j - y el j))%Q (seq 0 (al_degree opts)),
            map (fun j => n2 el j + mu * (u el j - v el j))%Q (seq 0 (al_degree opts)))) /\
    forall s1, tilde_step opts new [e1; e2] s = (s1, Ok tt) ->
      exists s', imn_update opts (Some th) p raw s = (s', Ok [e1; e2]) /\
        st_last (im_state s') = Some [e1; e2] /\ im_tilde s' = im_tilde s1.
Proof.
  intros opts th p s mu y u n1 n2 v raw Hd He Hsk Hrule H1 H2 Hmu ->.
  destruct (holds_joined _ _ _ _ _ _ He H1 H2) as [r [Hj Hr]].
  pose proof (split_theta_has _ _ _ _ _ _ _ _ Hd He Hr) as Hs.
  rewrite by_points_grid.
  set (D := al_degree opts) in *. set (E := al_elements opts) in *.
  set (O := fun el j => nu_next mu (y el j) (u el j) (n1 el j) (n2 el j) (v el j) (v el j)).
  assert (Hout : map (fun cx : Q * Q * (Q * Q) * Q => let '(c, x) := cx in
                       nu_next mu (fst (fst c)) (snd (fst c)) (fst (snd c)) (snd (snd c)) x x)
                     (combine (grid D E (fun el j => ((y el j, u el j), (n1 el j, n2 el j)))) (grid D E v))
                 = grid D E O).
  { rewrite combine_grid, map_grid. reflexivity. }
  destruct (grid D E O) as [|c0 cs] eqn:Eg.
  { exfalso. pose proof (grid_length D E O) as Hl. rewrite Eg in Hl. simpl in Hl. nia. }
  destruct (row_errors_two (map snd cs) (snd c0)) as [e1 [e2 [Herr [Hub [Ha1 Ha2]]]]].
  assert (Herr' : row_errors (map (fun o : Q * Q * (Q * Q) => [fst (snd o); snd (snd o)]) (grid D E O)) = [e1; e2]).
  { rewrite Eg, <- Herr. f_equal. change (snd c0 :: map snd cs) with (map snd (c0 :: cs)).
    rewrite map_map. reflexivity. }
  assert (Hin : forall o, In o (snd c0 :: map snd cs) <->
                          exists el j, el < E /\ j < D /\ o = (v el j - y el j, u el j - v el j)%Q).
  { intros o. change (snd c0 :: map snd cs) with (map snd (c0 :: cs)). rewrite <- Eg, map_grid, in_grid.
    split; intros [el [j [A [B ->]]]]; exists el, j; repeat split; assumption. }
  set (new := combine (seq 0 E)
                (combine (map (fun el => map (fun j => n1 el j + mu * (v el j - y el j))%Q (seq 0 D)) (seq 0 E))
                         (map (fun el => map (fun j => n2 el j + mu * (u el j - v el j))%Q (seq 0 D)) (seq 0 E)))).
  assert (Hcomp : forall s1, imn_compute opts (with_mu p (st_mu (im_state s))) r (grid D E v) s1 =
                             cbind (tilde_step opts new [e1; e2]) (fun _ => cret [e1; e2]) s1).
  { intros s1. unfold imn_compute. rewrite Hsk. fold D E. unfold cbind, cres. rewrite Hs.
    rewrite with_mu_app. unfold at_index. rewrite Hmu. rewrite !grid_length, Nat.eqb_refl. simpl negb.
    rewrite Hout. rewrite <- Eg.
    assert (V1 : vertsplit (map (fun o : Q * Q * (Q * Q) => fst (fst o)) (grid D E O)) D =
                 Ok (map (fun el => map (fun j => n1 el j + mu * (v el j - y el j))%Q (seq 0 D)) (seq 0 E))).
    { rewrite map_grid. unfold O, nu_next. simpl fst. apply vertsplit_grid. exact Hd. }
    assert (V2 : vertsplit (map (fun o : Q * Q * (Q * Q) => snd (fst o)) (grid D E O)) D =
                 Ok (map (fun el => map (fun j => n2 el j + mu * (u el j - v el j))%Q (seq 0 D)) (seq 0 E))).
    { rewrite map_grid. unfold O, nu_next. simpl. apply vertsplit_grid. exact Hd. }
    cbv iota. cbv beta. rewrite V1. cbv iota. cbv beta. rewrite V2. cbv iota. cbv beta.
    rewrite Herr'. rewrite map_length, seq_length. fold new. reflexivity. }
  assert (Hm : forall st, exists st', update_mu opts [e1; e2] (st_last st) st = (st', Ok tt)).
  { intros st. unfold update_mu. destruct (al_skip_mu opts); [eexists; reflexivity|].
    simpl in Hrule.
    destruct Hrule as [<-|[<-|[<-|[<-|[]]]]]; simpl; try (eexists; reflexivity).
    destruct (st_last st); eexists; reflexivity. }
  exists e1, e2, new. split; [|split; [|split]].
  - split.
    + intros el j A B. apply (Hub (v el j - y el j, u el j - v el j)%Q). apply Hin. exists el, j. auto.
    + destruct Ha1 as [o [Ho ->]]. apply Hin in Ho. destruct Ho as [el [j [A [B ->]]]].
      exists el, j. repeat split; try assumption.
  - split.
    + intros el j A B. apply (Hub (v el j - y el j, u el j - v el j)%Q). apply Hin. exists el, j. auto.
    + destruct Ha2 as [o [Ho ->]]. apply Hin in Ho. destruct Ho as [el [j [A [B ->]]]].
      exists el, j. repeat split; assumption.
  - intros el Hel. unfold new. rewrite combine_maps. rewrite dget_seq by exact Hel. reflexivity.
  - intros s1 Hs1. destruct (Hm (im_state s1)) as [st' Hst].
    exists (mkImn (set_st_last (Some [e1; e2]) st') (im_tilde s1)). split; [|split; reflexivity].
    unfold imn_update. unfold cbind at 1. unfold cres at 1. rewrite Hj.
    unfold cbind at 1. rewrite Hcomp. unfold cbind at 1. rewrite Hs1. unfold cret at 1.
    unfold cbind at 1, on_state at 1. rewrite Hst. reflexivity.
Qed.

(** ** No computation, no new multipliers *)

Lemma imn_skips : forall opts th p s y u n1 n2 raw,
  1 <= al_elements opts ->
  al_skip_compute opts = true ->
  In (al_rule opts) ["constant"; "primal"; "primal-dual"; "bounded-increase"]%string ->
  holds (al_degree opts) (al_elements opts) [y; u] th ->
  holds (al_degree opts) (al_elements opts) [n1; n2] (st_nu (im_state s)) ->
  exists s', imn_update opts (Some th) p raw s = (s', Ok [0%Q]) /\
    st_last (im_state s') = Some [0%Q] /\ st_nu (im_state s') = st_nu (im_state s) /\
    im_tilde s' = im_tilde s.
Proof.
  intros opts th p s y u n1 n2 raw He Hsk Hrule H1 H2.
  destruct (holds_joined _ _ _ _ _ _ He H1 H2) as [r [Hj _]].
  assert (Hm : forall st, exists st', update_mu opts [0%Q] (st_last st) st = (st', Ok tt)).
  { intros st. unfold update_mu. destruct (al_skip_mu opts); [eexists; reflexivity|].
    simpl in Hrule.
    destruct Hrule as [<-|[<-|[<-|[<-|[]]]]]; simpl; try (eexists; reflexivity).
    destruct (st_last st); eexists; reflexivity. }
  destruct (Hm (im_state s)) as [st' Hst].
  exists (mkImn (set_st_last (Some [0%Q]) st') (im_tilde s)).
  split; [|split; [|split]].
  - unfold imn_update. unfold cbind at 1. unfold cres at 1. rewrite Hj.
    unfold cbind at 1. unfold imn_compute. rewrite Hsk. unfold cret at 1.
    unfold cbind at 1, on_state at 1. rewrite Hst. reflexivity.
  - reflexivity.
  - exact (proj1 (update_mu_keeps _ _ _ _ _ _ Hst)).
  - reflexivity.
Qed.

Lemma imn_keeps_tilde : forall opts th p s mu y u n1 n2 v raw,
  1 <= al_degree opts -> 1 <= al_elements opts ->
  al_skip_compute opts = false -> al_skip_nu opts = true ->
  In (al_rule opts) ["constant"; "primal"; "primal-dual"; "bounded-increase"]%string ->
  holds (al_degree opts) (al_elements opts) [y; u] th ->
  holds (al_degree opts) (al_elements opts) [n1; n2] (st_nu (im_state s)) ->
  nth_error (match p with Some v => v | None => [] end ++ st_mu (im_state s)) 0 = Some mu ->
  raw = by_points (al_degree opts) (al_elements opts) v ->
  exists s' e1 e2, imn_update opts (Some th) p raw s = (s', Ok [e1; e2]) /\
    largest (al_degree opts) (al_elements opts) (fun el j => v el j - y el j)%Q e1 /\
    largest (al_degree opts) (al_elements opts) (fun el j => u el j - v el j)%Q e2 /\
    st_last (im_state s') = Some [e1; e2] /\
    im_tilde s' = im_tilde s.
Proof.
  intros opts th p s mu y u n1 n2 v raw Hd He Hsk Hsn Hrule H1 H2 Hmu Hraw.
  destruct (imn_core opts th p s mu y u n1 n2 v raw Hd He Hsk Hrule H1 H2 Hmu Hraw)
    as [e1 [e2 [new [L1 [L2 [_ Hrun]]]]]].
  destruct (Hrun s) as [s' [A [B C]]].
  { unfold tilde_step. rewrite Hsn. reflexivity. }
  exists s', e1, e2. repeat split; try assumption; try apply L1; try apply L2.
Qed.

(** ** Updating only what improved *)

Lemma dget_remap {B : Type} : forall (g : nat -> B -> B) (d : dict nat B) k,
  dget Nat.eqb k (map (fun kv => (fst kv, g (fst kv) (snd kv))) d) =
  match dget Nat.eqb k d with Some b => Some (g k b) | None => None end.
Proof.
  intros g d k. induction d as [|[k' b] d IH]; simpl; [reflexivity|].
  destruct (Nat.eqb k k') eqn:E; [|exact IH].
  apply Nat.eqb_eq in E. subst k'. reflexivity.
Qed.

(** The entries after one improvement. *)
Definition improved (new : dict nat (list Q * list Q)) (i : nat) (err last : Q) (d : dict nat (list Q * list Q))
  : dict nat (list Q * list Q) :=
  if Qle_bool last err then d
  else map (fun kv => (fst kv, match dget Nat.eqb (fst kv) new with
                               | Some v => put_entry i v (snd kv)
                               | None => snd kv
                               end)) d.

Lemma improved_keys : forall new i err last d, dkeys (improved new i err last d) = dkeys d.
Proof.
  intros new i err last d. unfold improved. destruct (Qle_bool last err); [reflexivity|].
  unfold dkeys. rewrite map_map. reflexivity.
Qed.

Lemma improvement_runs : forall new i err last d s,
  im_tilde s = Some d -> (forall el, In el (dkeys d) -> In el (dkeys new)) ->
  exists s1, imn_improvement new i err last s = (s1, Ok tt) /\ im_tilde s1 = Some (improved new i err last d).
Proof.
  intros new i err last d s Hd Hk. unfold imn_improvement, improved.
  destruct (Qle_bool last err); [exists s; split; [reflexivity|exact Hd]|].
  assert (Hex : existsb (fun kv : nat * (list Q * list Q) => negb (memb Nat.eqb (fst kv) (dkeys new))) d = false).
  { destruct (existsb _ d) eqn:Ex; [|reflexivity]. apply existsb_exists in Ex.
    destruct Ex as [kv [Hin Hn]]. apply Bool.negb_true_iff in Hn.
    assert (Hi : In (fst kv) (dkeys new)) by (apply Hk; unfold dkeys; apply in_map; exact Hin).
    apply (proj2 (memb_nat _ _)) in Hi. congruence. }
  destruct s as [st ti]. cbn in Hd. subst ti.
  eexists. split.
  - cbn -[dkeys memb dget existsb set_st_last put_entry]. unfold cbind, on_state, cmodify, cguard.
    cbn -[dkeys memb dget existsb set_st_last put_entry]. rewrite Hex. reflexivity.
  - reflexivity.
Qed.

Lemma head_replaced_set : forall l q, head_replaced q l (set_nth l 0 q).
Proof.
  intros [|a l] q; split; try reflexivity; split; simpl.
  - discriminate.
  - reflexivity.
  - intros z H. congruence.
  - intros [|j] H; [lia|reflexivity].
Qed.

Lemma Qle_bool_false : forall a b, Qle_bool a b = false <-> (b < a)%Q.
Proof.
  intros a b. split; intros H.
  - destruct (Qlt_le_dec b a) as [L|L]; [exact L|]. apply Qle_bool_iff in L. congruence.
  - destruct (Qle_bool a b) eqn:E; [|reflexivity]. apply Qle_bool_iff in E. lra.
Qed.

Lemma imn_improves : forall opts th p s mu y u n1 n2 v raw l1 l2 d,
  1 <= al_degree opts -> 1 <= al_elements opts ->
  al_skip_compute opts = false -> al_skip_nu opts = false -> al_improve opts = true ->
  In (al_rule opts) ["constant"; "primal"; "primal-dual"; "bounded-increase"]%string ->
  holds (al_degree opts) (al_elements opts) [y; u] th ->
  holds (al_degree opts) (al_elements opts) [n1; n2] (st_nu (im_state s)) ->
  nth_error (match p with Some v => v | None => [] end ++ st_mu (im_state s)) 0 = Some mu ->
  raw = by_points (al_degree opts) (al_elements opts) v ->
  st_last (im_state s) = Some [l1; l2] -> im_tilde s = Some d ->
  (forall el, In el (dkeys d) -> el < al_elements opts) ->
  exists s' e1 e2, imn_update opts (Some th) p raw s = (s', Ok [e1; e2]) /\
    largest (al_degree opts) (al_elements opts) (fun el j => v el j - y el j)%Q e1 /\
    largest (al_degree opts) (al_elements opts) (fun el j => u el j - v el j)%Q e2 /\
    st_last (im_state s') = Some [e1; e2] /\
    ((0 < e1)%Q \/ (0 < e2)%Q ->
     exists d', im_tilde s' = Some d' /\ dkeys d' = dkeys d /\
       forall el r1 r2, dget Nat.eqb el d = Some (r1, r2) ->
       exists r1' r2', dget Nat.eqb el d' = Some (r1', r2') /\
         ((l1 <= e1)%Q -> r1' = r1) /\
         ((e1 < l1)%Q -> head_replaced (n1 el 0%nat + mu * (v el 0%nat - y el 0%nat))%Q r1 r1') /\
         ((l2 <= e2)%Q -> r2' = r2) /\
         ((e2 < l2)%Q -> head_replaced (n2 el 0%nat + mu * (u el 0%nat - v el 0%nat))%Q r2 r2')).
Proof.
  intros opts th p s mu y u n1 n2 v raw l1 l2 d Hd He Hsk Hsn Him Hrule H1 H2 Hmu Hraw Hlast Ht Hkeys.
  destruct (imn_core opts th p s mu y u n1 n2 v raw Hd He Hsk Hrule H1 H2 Hmu Hraw)
    as [e1 [e2 [new [L1 [L2 [Hnew Hrun]]]]]].
  assert (Hk : forall el, In el (dkeys d) -> In el (dkeys new)).
  { intros el Hel. apply Hkeys, Hnew in Hel. apply (dget_In Nat.eqb Nat.eqb_eq) in Hel.
    unfold dkeys. apply in_map_iff. eexists. split; [|exact Hel]. reflexivity. }
  destruct (existsb (fun e => negb (Qle_bool e 0)) [e1; e2]) eqn:Epos.
  - destruct (improvement_runs new 0 e1 l1 d s Ht Hk) as [s1 [R1 T1]].
    destruct (improvement_runs new 1 e2 l2 _ s1 T1) as [s2 [R2 T2]].
    { intros el. rewrite improved_keys. apply Hk. }
    destruct (Hrun s2) as [s' [A [B C]]].
    { unfold tilde_step. rewrite Hsn, Hlast, Him, Epos. cbn -[imn_improvement].
      unfold crun. cbn -[imn_improvement]. rewrite R1. cbn -[imn_improvement]. rewrite R2. reflexivity. }
    exists s', e1, e2. split; [exact A|]. split; [exact L1|]. split; [exact L2|]. split; [exact B|].
    intros _. eexists. split; [rewrite C; exact T2|]. split; [rewrite !improved_keys; reflexivity|].
    intros el r1 r2 Hel.
    assert (Hlt : el < al_elements opts).
    { apply Hkeys. apply (dget_In Nat.eqb Nat.eqb_eq) in Hel.
      unfold dkeys. apply in_map_iff. eexists. split; [|exact Hel]. reflexivity. }
    specialize (Hnew el Hlt).
    set (g := fun i k (b : list Q * list Q) =>
                match dget Nat.eqb k new with Some w => put_entry i w b | None => b end).
    assert (Himp : forall i e l (dd : dict nat (list Q * list Q)) b, dget Nat.eqb el dd = Some b ->
              dget Nat.eqb el (improved new i e l dd) = Some (if Qle_bool l e then b else g i el b)).
    { intros i e l dd b Hb. unfold improved. destruct (Qle_bool l e); [exact Hb|].
      pose proof (dget_remap (g i) dd el) as E. unfold g in E at 1. rewrite E, Hb. reflexivity. }
    rewrite (Himp 1 e2 l2 _ _ (Himp 0 e1 l1 d _ Hel)).
    unfold g. rewrite Hnew. unfold put_entry. cbn [Nat.eqb].
    destruct (al_degree opts) as [|D']; [lia|].
    destruct (Qle_bool l1 e1) eqn:E1; destruct (Qle_bool l2 e2) eqn:E2; cbn [fst snd seq map nth];
      eexists; eexists; (split; [reflexivity|]);
      repeat match goal with
             | H : Qle_bool _ _ = true |- _ => apply Qle_bool_iff in H
             | H : Qle_bool _ _ = false |- _ => apply Qle_bool_false in H
             end;
      (split; [intros ?; try reflexivity; exfalso; lra|]);
      (split; [intros ?; try apply head_replaced_set; exfalso; lra|]);
      (split; [intros ?; try reflexivity; exfalso; lra|]);
      (intros ?; try apply head_replaced_set; exfalso; lra).
  - destruct (Hrun (set_im_tilde (Some new) s)) as [s' [A [B C]]].
    { unfold tilde_step. rewrite Hsn, Hlast, Him, Epos. reflexivity. }
    exists s', e1, e2. split; [exact A|]. split; [exact L1|]. split; [exact L2|]. split; [exact B|].
    intros Hpos. exfalso. cbn in Epos. apply Bool.orb_false_iff in Epos. destruct Epos as [P1 P2].
    apply Bool.orb_false_iff in P2. destruct P2 as [P2 _].
    apply Bool.negb_false_iff, Qle_bool_iff in P1. apply Bool.negb_false_iff, Qle_bool_iff in P2.
    destruct Hpos; lra.
Qed.

Lemma canal_improvement_refuted : exists opts th s s' l1 l2 e1 e2 s2 d d2 el r1 r1' r2 r2',
  al_improve opts = true /\
  st_last (im_state s) = Some [l1; l2] /\
  imn_update opts (Some th) None [6; 4; 1; 3]%Q s = (s', Ok [e1; e2]) /\ (e1 < l1)%Q /\
  imn_update (set_improve false opts) (Some th) None [6; 4; 1; 3]%Q s = (s2, Ok [e1; e2]) /\
  im_tilde s' = Some d /\ im_tilde s2 = Some d2 /\
  dget Nat.eqb el d = Some (r1, r2) /\ dget Nat.eqb el d2 = Some (r1', r2') /\
  ~ Forall2 Qeq r1 r1'.
Proof.
  exists canal_improving, canal_theta, canal_later.
  do 5 eexists. do 3 eexists. exists 0%nat. do 4 eexists.
  split; [reflexivity|]. split; [reflexivity|]. split; [vm_compute; reflexivity|].
  split; [reflexivity|]. split; [vm_compute; reflexivity|]. split; [reflexivity|]. split; [reflexivity|].
  split; [reflexivity|]. split; [reflexivity|].
  intros H. inversion H as [|? ? ? ? _ H2]; subst. inversion H2 as [|? ? ? ? H3 _]; subst. discriminate H3.
Qed.

(** ** The method right after its construction *)

Lemma repeat_blocks : forall (q : Q) D n,
  flat_map (fun v : nat -> nat -> Q => map (v 0%nat) (seq 0 D)) (repeat (fun _ _ => q) n) = repeat q (n * D).
Proof.
  intros q D n. induction n as [|n IH]; [reflexivity|].
  simpl. rewrite IH, repeat_app. f_equal.
  clear IH. generalize 0%nat at 1. induction D as [|D ID]; intros k; simpl; [reflexivity|].
  f_equal. apply ID.
Qed.

Lemma imn_starts : forall opts n s, s = imn_start opts n ->
  st_mu (im_state s) = repeat (al_mu_0 opts) (2 * n) /\
  holds (al_degree opts) (al_elements opts) (repeat (fun _ _ => 0%Q) (2 * n)) (st_nu (im_state s)) /\
  st_last (im_state s) = None /\ im_tilde s = None.
Proof.
  intros opts n s ->. split; [reflexivity|]. split; [|split; reflexivity].
  unfold imn_start. cbn [im_state st_nu]. split.
  - unfold create_constant_theta. rewrite map_length. apply seq_length.
  - intros el Hel. rewrite constant_theta_lookup.
    replace (el <? al_elements opts) with true by (symmetry; apply Nat.ltb_lt; exact Hel).
    f_equal. rewrite Nat.mul_1_r. rewrite <- repeat_blocks.
    generalize (2 * n)%nat. intros m. induction m as [|m IH]; [reflexivity|]. simpl. rewrite IH. reflexivity.
Qed.

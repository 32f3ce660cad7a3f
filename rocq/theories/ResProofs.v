(** Proofs about optimisation results. *)
From Coq Require Import String Lia.
From Verif Require Import Base BaseProofs UtilModel UtilProofs ExprModel SysModel OcpModel OcpSpec OcpMoreProofs DataModel DataSpec DataProofs
  DiscModel DiscSpec DiscProofs ResModel ResSpec.
Local Open Scope list_scope.
Local Open Scope nat_scope.

(** ** Data sets *)

Lemma run_seq_inv : forall (S : Type) (f : nat -> cmd S unit) (P : nat -> S -> Prop) n from s,
    (forall i s, from <= i < from + n -> P i s -> exists s', f i s = (s', Ok tt) /\ P (i + 1) s') ->
    P from s -> exists s', run_all f (seq from n) s = (s', Ok tt) /\ P (from + n) s'.
Proof.
  intros S f P n. induction n as [|n IH]; intros from s Hf H0.
  - exists s. split; [reflexivity|]. rewrite Nat.add_0_r. exact H0.
  - cbn [seq run_all]. destruct (Hf from s ltac:(lia) H0) as [s1 [E1 H1]]. rewrite E1.
    destruct (IH (from + 1) s1) as [s2 [E2 H2]]; [intros i s' Hi; apply Hf; lia | exact H1|].
    replace (from + 1) with (Datatypes.S from) in E2 by lia. exists s2. split; [exact E2|].
    replace (from + Datatypes.S n) with (from + 1 + n) by lia. exact H2.
Qed.

Lemma cbind_step : forall (S A B : Type) (c : cmd S A) (f : A -> cmd S B) s s' a,
    c s = (s', Ok a) -> cbind c f s = f a s'.
Proof. intros S A B c f s s' a H. unfold cbind. rewrite H. reflexivity. Qed.

Definition good (d : dataset) : Prop := consistent d /\ sized d.
Definition ready (size : nat) (names : list string) (pts : list (Q * list Q)) (k : string) (d : dataset) : Prop :=
  exists e, look k d = Some e /\ points e = pts /\ e_names e = names /\ e_size e = Some size /\
    (e_values e = null \/ mrows (e_values e) = size).
Record holds (keys : list string) (size : string -> nat) (names : string -> list string)
    (f : string -> list (Q * list Q)) (d : dataset) : Prop := mkHolds
  { ho_keys : dkeys d = keys; ho_good : good d;
    ho_ready : forall k, In k keys -> ready (size k) (names k) (f k) k d }.
Definition upd (k : string) (l : list (Q * list Q)) (f : string -> list (Q * list Q)) : string -> list (Q * list Q) :=
  fun k' => if String.eqb k' k then l else f k'.

Lemma holds_ext : forall keys size names f f' d, (forall k, In k keys -> f k = f' k) ->
    holds keys size names f d -> holds keys size names f' d.
Proof.
  intros keys size names f f' d E [H1 H2 H3]. constructor; try assumption. intros k Hk. rewrite <- E by exact Hk. apply H3, Hk.
Qed.

Lemma block_insert : forall keys size names f d k t v,
    holds keys size names f d -> In k keys -> block (size k) t v ->
    exists d', insert_block k t v d = (d', Ok tt) /\ holds keys size names (upd k (f k ++ combine t v) f) d'.
Proof.
  intros keys size names f d k t v [Hk [C S] Hr] Ik [Hv [L F]].
  destruct (Hr k Ik) as [e [El [Ep [En [Es Em]]]]].
  assert (Et : time_of_list t = Ok (TimeRow t)).
  { destruct t; [destruct v; [contradiction | discriminate] | reflexivity]. }
  assert (Ev : columns v = Ok (mkMat (size k) v)).
  { destruct v as [|c v]; [contradiction|]. unfold columns. inversion F as [|c' v' Lc Fv]; subst.
    rewrite Lc. replace (forallb _ _) with true; [reflexivity|]. symmetry. apply forallb_forall. intros a Ha.
    apply Nat.eqb_eq. rewrite Forall_forall in F. rewrite (F a Ha). reflexivity. }
  unfold insert_block, cbind, cres. rewrite Et, Ev.
  assert (I : snd (insert_data k (TimeRow t) (mkMat (size k) v) d) = Ok tt).
  { apply insert_iff; [exact S|]. split; [discriminate|]. split; [exact L|]. exists e. split; [exact El|].
    destruct Em as [Em|Em]; [left; exact Em | right; right; exact Em]. }
  pose proof (insert_consistent k (TimeRow t) (mkMat (size k) v) d C F) as C1.
  destruct (insert_data k (TimeRow t) (mkMat (size k) v) d) as [d1 r1] eqn:E. simpl in I. subst r1. cbn [fst] in C1.
  exists d1. split; [reflexivity|].
  apply insert_ok in E; try assumption. destruct E as [e0 [e' [E0 [-> [[Lb1 [Lb2 _]] [_ [_ [P [M1 M2]]]]]]]]].
  assert (e0 = e) by congruence. subst e0. cbn [times_of mcols mrows] in P, M2.
  constructor.
  - rewrite <- Hk. exact (keys_put_in _ _ _ _ El).
  - split; [exact C1|]. eapply sized_put; [exact S | exact El | exact Lb2].
  - intros k' Ik'. unfold upd. destruct (String.eqb_spec k' k) as [->|NE].
    + exists e'. rewrite look_put_same. split; [reflexivity|]. split; [rewrite P, Ep; reflexivity|].
      split; [congruence|]. split; [congruence|]. right. destruct Em as [Em|Em]; [apply M2, Em|].
      destruct (is_null (e_values e)) eqn:En0.
      * apply M2. unfold is_null in En0. destruct (e_values e) as [[|a] [|b l]]; try discriminate. reflexivity.
      * rewrite M1; [exact Em|]. intros X. rewrite X in En0. discriminate.
    + destruct (Hr k' Ik') as [e1 [El1 R1]]. exists e1. rewrite look_put_other by exact NE. split; [exact El1 | exact R1].
Qed.

Lemma samples_S : forall n t v, samples (n + 1) t v = samples n t v ++ combine (nth n t []) (nth n v []).
Proof.
  intros n t v. unfold samples. rewrite seq_app, map_app, concat_app. cbn [Nat.add seq map concat]. rewrite app_nil_r. reflexivity.
Qed.
Lemma at_index_nth : forall (A : Type) (l : list A) i e d, i < length l -> at_index l i e = Ok (nth i l d).
Proof. intros A l i e d H. unfold at_index. rewrite (nth_error_nth' l d H). reflexivity. Qed.

Lemma element_insert : forall keys size names f d k n t v el,
    holds keys size names (upd k (samples el t v) f) d -> In k keys -> series n (size k) t v -> el < n ->
    exists d', insert_element k t v el d = (d', Ok tt) /\ holds keys size names (upd k (samples (el + 1) t v) f) d'.
Proof.
  intros keys size names f d k n t v el H Ik [L1 [L2 B]] Hel. unfold insert_element, cbind, cres.
  rewrite (at_index_nth _ t el IndexError []), (at_index_nth _ v el IndexError []) by lia.
  destruct (block_insert _ _ _ _ _ k _ _ H Ik (B el Hel)) as [d' [E H']]. exists d'. split; [exact E|].
  eapply holds_ext; [|exact H']. intros k' _. unfold upd. destruct (String.eqb_spec k' k) as [->|]; [|reflexivity].
  rewrite String.eqb_refl, samples_S. reflexivity.
Qed.

Lemma series_insert : forall keys size names f d k n t v,
    holds keys size names f d -> f k = [] -> In k keys -> series n (size k) t v ->
    exists d', crun (insert_element k t v) (seq 0 n) d = (d', Ok tt) /\ holds keys size names (upd k (samples n t v) f) d'.
Proof.
  intros keys size names f d k n t v H E0 Ik Sr. unfold crun.
  apply (run_seq_inv _ _ (fun i => holds keys size names (upd k (samples i t v) f)) n 0 d).
  - intros i s Hi Hs. apply (element_insert _ _ _ _ _ _ n); try assumption. lia.
  - eapply holds_ext; [|exact H]. intros k' _. unfold upd. destruct (String.eqb_spec k' k) as [->|]; [exact E0 | reflexivity].
Qed.

Lemma entry_created : forall default keys size names f d k style,
    holds keys size names f d -> ~ In k keys -> f k = [] ->
    exists d', create_entry default k (Some (size k)) (Some (names k)) style d = (d', Ok tt) /\
      holds (keys ++ [k]) size names f d'.
Proof.
  intros default keys size names f d k style [Hk [C S] Hr] Nk E0. unfold create_entry, cset. eexists. split; [reflexivity|].
  assert (Nl : look k d = None).
  { destruct (look k d) eqn:E; [|reflexivity]. exfalso. apply Nk. rewrite <- Hk. apply look_In. congruence. }
  constructor.
  - rewrite keys_put. unfold dhas. unfold look in Nl. rewrite Nl, Hk. reflexivity.
  - split.
    + apply consistent_put; [exact C|]. split; [reflexivity | constructor].
    + intros k' e'. rewrite look_put. destruct (String.eqb k' k); [intros E; injection E as <-; discriminate | apply S].
  - intros k' Ik'. apply in_app_iff in Ik'. destruct Ik' as [Ik'|[<-|[]]].
    + destruct (Hr k' Ik') as [e [El R]]. exists e. rewrite look_put_other by (intros ->; contradiction). split; [exact El | exact R].
    + eexists. rewrite look_put_same. split; [reflexivity|]. rewrite E0. repeat split. left. reflexivity.
Qed.

Lemma style_set : forall keys size names f d k s,
    holds keys size names f d -> In k keys ->
    exists d', cset (fun d => match look k d with None => Raise KeyError | Some e => Ok (set_e_style s e) end) (put k) d = (d', Ok tt) /\
      holds keys size names f d'.
Proof.
  intros keys size names f d k s [Hk [C S] Hr] Ik. destruct (Hr k Ik) as [e [El [Ep [En [Es Em]]]]].
  unfold cset. rewrite El. eexists. split; [reflexivity|]. constructor.
  - rewrite (keys_put_in _ _ _ _ El). exact Hk.
  - split; [apply consistent_put; [exact C | exact (proj2 C k e El)]|]. eapply sized_put; [exact S | exact El | reflexivity].
  - intros k' Ik'. destruct (String.eqb_spec k' k) as [->|NE].
    + eexists. rewrite look_put_same. split; [reflexivity|]. repeat split; assumption.
    + destruct (Hr k' Ik') as [e1 [El1 R1]]. exists e1. rewrite look_put_other by exact NE. split; [exact El1 | exact R1].
Qed.

(** ** The conversion *)

Section Dataset.
  Variable default : string -> nat -> string.
  Variable r : opt_result.
  Hypothesis Cp : complete r.
  Let other_at (k : string) := dget String.eqb k (w_other r).
  Let keys : list string := reserved ++ map fst (w_other r).

  Definition width (k : string) : nat :=
    if String.eqb k "x" then length (w_x_names r) else if String.eqb k "y" then length (w_y_names r)
    else if String.eqb k "u" then length (w_u_names r) else if String.eqb k "theta_opt" then length (w_theta_names r)
    else match other_at k with Some (v, _) => length (nth 0 (nth 0 v []) []) | None => 0 end.
  Definition labels (k : string) : list string :=
    if String.eqb k "x" then w_x_names r else if String.eqb k "y" then w_y_names r
    else if String.eqb k "u" then w_u_names r else if String.eqb k "theta_opt" then w_theta_names r
    else map (default k) (seq 0 (width k)).
  Let none : string -> list (Q * list Q) := fun _ => [].

  Lemma other_key : forall k v t, In (k, (v, t)) (w_other r) -> other_at k = Some (v, t) /\ ~ In k reserved.
  Proof.
    intros k v t H. pose proof (cp_keys _ Cp) as N. split.
    - apply (In_dget String.eqb String.eqb_eq); [apply NoDup_app_r in N; exact N | exact H].
    - intros X. apply (NoDup_app_disjoint _ _ _ k N X). apply in_map_iff. exists (k, (v, t)). split; [reflexivity | exact H].
  Qed.
  Lemma width_other : forall k v t, In (k, (v, t)) (w_other r) -> width k = length (nth 0 (nth 0 v []) []) /\
      labels k = map (default k) (seq 0 (width k)).
  Proof.
    intros k v t H. destruct (other_key _ _ _ H) as [E N]. unfold labels, width. rewrite E.
    assert (X : forall s, In s reserved -> String.eqb k s = false) by (intros s Hs; apply String.eqb_neq; intros ->; contradiction).
    rewrite !X by (simpl; tauto). split; reflexivity.
  Qed.
  Lemma series_other : forall k v t, In (k, (v, t)) (w_other r) -> 0 < w_elements r /\ series (w_elements r) (width k) t v /\
      exists l1 l2 c l3, v = (c :: l1) :: l2 /\ length c = width k /\ l3 = c.
  Proof.
    intros k v t H. destruct (cp_other _ Cp _ _ _ H) as [HK [size Sr]]. split; [exact HK|].
    destruct (width_other _ _ _ H) as [W _].
    destruct Sr as [L1 [L2 B]]. destruct v as [|v0 v]; [simpl in L2; lia|]. destruct (B 0 HK) as [Hv [Lt Fv]]. cbn [nth] in Hv, Fv.
    destruct v0 as [|c v0]; [contradiction|]. inversion Fv as [|? ? Lc ?]; subst. cbn [nth] in W. split.
    - rewrite W. split; [exact L1|]. split; [exact L2 | exact B].
    - exists v0, v, c, c. split; [reflexivity|]. split; [symmetry; exact W | reflexivity].
  Qed.

  Definition other_entry (o : string * (list (list (list Q)) * list (list Q))) : cmd dataset unit :=
    cbind (cres (match at_index (fst (snd o)) 0 IndexError with
                 | Ok el => at_index el 0 IndexError | Raise e => Raise e end))
      (fun size : list Q => create_entry default (fst o) (Some (length size))
        (Some (map (default (fst o)) (seq 0 (length size)))) "plot"%string).
  Lemma others_created : forall l before d, w_other r = before ++ l ->
      holds (reserved ++ map fst before) width labels none d ->
      exists d', crun other_entry l d = (d', Ok tt) /\ holds keys width labels none d'.
  Proof.
    intros l. induction l as [|[k [v t]] l IH]; intros before d E H.
    - exists d. split; [reflexivity|]. rewrite app_nil_r in E. unfold keys. rewrite E. exact H.
    - assert (I : In (k, (v, t)) (w_other r)) by (rewrite E; apply in_app_iff; right; left; reflexivity).
      destruct (series_other _ _ _ I) as [_ [_ [l1 [l2 [c [_ [Ev [Lc _]]]]]]]]. destruct (width_other _ _ _ I) as [_ El].
      destruct (entry_created default _ _ _ _ _ k "plot"%string H) as [d1 [E1 H1]].
      { intros X. pose proof (cp_keys _ Cp) as N. rewrite E, map_app in N. cbn [map fst] in N. rewrite app_assoc in N.
        apply NoDup_remove_2 in N. apply N. apply in_app_iff. left. exact X. }
      { reflexivity. }
      destruct (IH (before ++ [(k, (v, t))]) d1) as [d2 [E2 H2]].
      { rewrite <- app_assoc. exact E. }
      { rewrite map_app, app_assoc. exact H1. }
      exists d2. split; [|exact H2]. unfold crun in *. cbn [run_all].
      assert (Ek : other_entry (k, (v, t)) d = (d1, Ok tt)).
      { unfold other_entry, cbind, cres. cbn [fst snd]. rewrite Ev. cbn. rewrite Lc, <- El. exact E1. }
      rewrite Ek. exact E2.
  Qed.

  Definition series_or (names : list string) (l : list (Q * list Q)) : list (Q * list Q) :=
    match names with [] => [] | _ => l end.
  Definition final (k : string) : list (Q * list Q) :=
    if String.eqb k "x" then series_or (w_x_names r) (samples (w_elements r + 1) (w_x_time r ++ [[w_t_f r]]) (w_x r))
    else if String.eqb k "y" then series_or (w_y_names r) (samples (w_elements r) (w_y_time r) (w_y r))
    else if String.eqb k "u" then series_or (w_u_names r) (samples (w_elements r) (w_u_time r) (w_u r))
    else if String.eqb k "theta_opt" then series_or (w_theta_names r) (combine (removelast (w_breakpoints r)) (w_theta_opt r))
    else match other_at k with Some (v, t) => samples (w_elements r) t v | None => [] end.

  Lemma in_reserved : forall k, In k reserved -> In k keys.
  Proof. intros k H. apply in_app_iff. left. exact H. Qed.

  Lemma guarded_insert : forall names f d k n t v,
      holds keys width labels f d -> f k = [] -> In k keys -> (names <> [] -> series n (width k) t v) ->
      exists d', (if match names with [] => false | _ :: _ => true end then crun (insert_element k t v) (seq 0 n) else cret tt) d = (d', Ok tt) /\
        holds keys width labels (upd k (series_or names (samples n t v)) f) d'.
  Proof.
    intros names f d k n t v H E0 Ik Sr. destruct names as [|a names].
    - exists d. split; [reflexivity|]. eapply holds_ext; [|exact H]. intros k' _. unfold upd. simpl.
      destruct (String.eqb_spec k' k) as [->|]; [exact E0 | reflexivity].
    - apply series_insert; try assumption. apply Sr. discriminate.
  Qed.
  Lemma guarded_element : forall (names : list string) f d k n t v el,
      holds keys width labels (upd k (series_or names (samples el t v)) f) d -> In k keys -> (names <> [] -> series n (width k) t v) -> el < n ->
      exists d', (if match names with [] => false | _ :: _ => true end then insert_element k t v el else cret tt) d = (d', Ok tt) /\
        holds keys width labels (upd k (series_or names (samples (el + 1) t v)) f) d'.
  Proof.
    intros names f d k n t v el H Ik Sr Hel. destruct names as [|a names].
    - exists d. split; [reflexivity | exact H].
    - apply (element_insert _ _ _ _ _ _ n); try assumption. apply Sr. discriminate.
  Qed.
  Lemma upd_comm : forall a b la lb f, a <> b -> forall k, upd a la (upd b lb f) k = upd b lb (upd a la f) k.
  Proof.
    intros a b la lb f N k. unfold upd. destruct (String.eqb_spec k a) as [->|]; [|reflexivity].
    destruct (String.eqb_spec a b); [contradiction | reflexivity].
  Qed.

  Lemma others_inserted : forall l before f d, w_other r = before ++ l ->
      (forall k v t, In (k, (v, t)) l -> f k = []) ->
      holds keys width labels f d ->
      exists d' f', crun (fun o : string * (list (list (list Q)) * list (list Q)) =>
          crun (insert_element (fst o) (snd (snd o)) (fst (snd o))) (seq 0 (w_elements r))) l d = (d', Ok tt) /\
        holds keys width labels f' d' /\
        (forall k, ~ In k (map fst l) -> f' k = f k) /\
        (forall k v t, In (k, (v, t)) l -> f' k = samples (w_elements r) t v).
  Proof.
    intros l. induction l as [|[k [v t]] l IH]; intros before f d E F0 H.
    - exists d, f. split; [reflexivity|]. split; [exact H|]. split; [reflexivity | contradiction].
    - assert (I : In (k, (v, t)) (w_other r)) by (rewrite E; apply in_app_iff; right; left; reflexivity).
      assert (N : NoDup (map fst ((k, (v, t)) :: l))).
      { pose proof (cp_keys _ Cp) as N. apply NoDup_app_r in N. rewrite E, map_app in N. apply NoDup_app_r in N. exact N. }
      cbn [map fst] in N. apply NoDup_cons_iff in N. destruct N as [Nk Nl].
      destruct (series_other _ _ _ I) as [_ [Sr _]].
      destruct (series_insert _ _ _ _ _ k (w_elements r) t v H (F0 k v t (or_introl eq_refl))) as [d1 [E1 H1]].
      { apply in_app_iff. right. apply in_map_iff. exists (k, (v, t)). split; [reflexivity | exact I]. }
      { exact Sr. }
      destruct (IH (before ++ [(k, (v, t))]) (upd k (samples (w_elements r) t v) f) d1) as [d2 [f2 [E2 [H2 [O2 S2]]]]].
      { rewrite <- app_assoc. exact E. }
      { intros k' v' t' I'. unfold upd. destruct (String.eqb_spec k' k) as [->|].
        - exfalso. apply Nk. apply in_map_iff. exists (k, (v', t')). split; [reflexivity | exact I'].
        - apply (F0 k' v' t'). right. exact I'. }
      { exact H1. }
      exists d2, f2. split; [unfold crun in *; cbn [run_all fst snd]; rewrite E1; exact E2|]. split; [exact H2|]. split.
      + intros k' Hk'. cbn [map fst] in Hk'. rewrite O2 by (intros X; apply Hk'; right; exact X). unfold upd.
        destruct (String.eqb_spec k' k) as [->|]; [exfalso; apply Hk'; left; reflexivity | reflexivity].
      + intros k' v' t' [I'|I'].
        * injection I' as <- <- <-. rewrite O2 by exact Nk. unfold upd. rewrite String.eqb_refl. reflexivity.
        * apply S2, I'.
  Qed.

  Lemma to_dataset_ok : exists d, to_dataset default r = Ok d /\ holds keys width labels final d.
  Proof.
    unfold to_dataset, to_dataset_steps.
    assert (H0 : holds [] width labels none []).
    { constructor; [reflexivity | | intros k []]. split; [split; [constructor | intros k e; discriminate] | intros k e; discriminate]. }
    destruct (entry_created default _ _ _ _ _ "x" "plot" H0) as [d1 [E1 H1]]; [intros [] | reflexivity|].
    destruct (entry_created default _ _ _ _ _ "y" "plot" H1) as [d2 [E2 H2]]; [simpl; intuition discriminate | reflexivity|].
    destruct (entry_created default _ _ _ _ _ "u" "plot" H2) as [d3 [E3 H3]]; [simpl; intuition discriminate | reflexivity|].
    destruct (entry_created default _ _ _ _ _ "theta_opt" "step" H3) as [d4 [E4 H4]]; [simpl; intuition discriminate | reflexivity|].
    change (width "x") with (length (w_x_names r)) in E1. change (labels "x") with (w_x_names r) in E1.
    change (width "y") with (length (w_y_names r)) in E2. change (labels "y") with (w_y_names r) in E2.
    change (width "u") with (length (w_u_names r)) in E3. change (labels "u") with (w_u_names r) in E3.
    change (width "theta_opt") with (length (w_theta_names r)) in E4. change (labels "theta_opt") with (w_theta_names r) in E4.
    rewrite (cbind_step _ _ _ _ _ _ _ _ E1), (cbind_step _ _ _ _ _ _ _ _ E2), (cbind_step _ _ _ _ _ _ _ _ E3), (cbind_step _ _ _ _ _ _ _ _ E4).
    destruct (others_created (w_other r) [] d4 eq_refl H4) as [d5 [E5 H5]]. unfold other_entry in E5. rewrite (cbind_step _ _ _ _ _ _ _ _ E5).
    destruct (style_set _ _ _ _ _ "u" (if 1 <? w_degree_control r then "plot"%string else "step"%string) H5) as [d6 [E6 H6]];
      [apply in_reserved; simpl; tauto|]. rewrite (cbind_step _ _ _ _ _ _ _ _ E6).
    destruct (guarded_insert (w_x_names r) _ d6 "x" _ _ _ H6 eq_refl (in_reserved "x" ltac:(simpl; tauto)) (cp_x _ Cp))
      as [d7 [E7 H7]]. rewrite (cbind_step _ _ _ _ _ _ _ _ E7).
    set (f7 := upd "x" _ none) in H7.
    set (step := fun el => cbind _ _).
    destruct (run_seq_inv _ step (fun i => holds keys width labels
        (upd "u" (series_or (w_u_names r) (samples i (w_u_time r) (w_u r)))
          (upd "y" (series_or (w_y_names r) (samples i (w_y_time r) (w_y r))) f7))) (w_elements r) 0 d7) as [d8 [E8 H8]].
    { intros i d Hi H.
      assert (H' : holds keys width labels (upd "y" (series_or (w_y_names r) (samples i (w_y_time r) (w_y r)))
         (upd "u" (series_or (w_u_names r) (samples i (w_u_time r) (w_u r))) f7)) d).
      { eapply holds_ext; [|exact H]. intros k _. apply upd_comm. discriminate. }
      destruct (guarded_element (w_y_names r) _ d "y" _ _ _ i H' (in_reserved "y" ltac:(simpl; tauto)) (cp_y _ Cp))
        as [da [Ea Ha]]; [lia|].
      assert (Ha' : holds keys width labels (upd "u" (series_or (w_u_names r) (samples i (w_u_time r) (w_u r)))
         (upd "y" (series_or (w_y_names r) (samples (i + 1) (w_y_time r) (w_y r))) f7)) da).
      { eapply holds_ext; [|exact Ha]. intros k _. apply upd_comm. discriminate. }
      destruct (guarded_element (w_u_names r) _ da "u" _ _ _ i Ha' (in_reserved "u" ltac:(simpl; tauto)) (cp_u _ Cp))
        as [db [Eb Hb]]; [lia|].
      exists db. split; [|exact Hb]. unfold step, cbind. rewrite Ea. exact Eb. }
    { eapply holds_ext; [|exact H7]. intros k _. unfold upd, f7, upd. destruct (String.eqb_spec k "u") as [->|].
      - unfold samples. simpl. destruct (w_u_names r); reflexivity.
      - destruct (String.eqb_spec k "y") as [->|]; [unfold samples; simpl; destruct (w_y_names r); reflexivity | reflexivity]. }
    change (run_all step (seq 0 (w_elements r)) d7) with (crun step (seq 0 (w_elements r)) d7) in E8. rewrite (cbind_step _ _ _ _ _ _ _ _ E8). cbn [Nat.add] in H8.
    set (f8 := upd "u" _ _) in H8.
    assert (T : exists d9, (if match w_theta_names r with [] => false | _ :: _ => true end
                  then insert_block "theta_opt" (removelast (w_breakpoints r)) (w_theta_opt r) else cret tt) d8 = (d9, Ok tt) /\
               holds keys width labels (upd "theta_opt" (series_or (w_theta_names r) (combine (removelast (w_breakpoints r)) (w_theta_opt r))) f8) d9).
    { assert (F8 : f8 "theta_opt"%string = []) by reflexivity. pose proof (cp_theta _ Cp) as B.
      assert (W : width "theta_opt" = length (w_theta_names r)) by reflexivity.
      destruct (w_theta_names r) as [|a l] eqn:En.
      - exists d8. split; [reflexivity|]. eapply holds_ext; [|exact H8]. intros k _. unfold upd at 1.
        destruct (String.eqb_spec k "theta_opt") as [->|]; [exact F8 | reflexivity].
      - destruct (block_insert _ _ _ _ _ "theta_opt" (removelast (w_breakpoints r)) (w_theta_opt r) H8) as [d9 [E9 H9]].
        + apply in_reserved. simpl. tauto.
        + rewrite W. apply B. discriminate.
        + exists d9. split; [exact E9|]. rewrite F8 in H9. exact H9. }
    destruct T as [d9 [E9 H9]]. rewrite (cbind_step _ _ _ _ _ _ _ _ E9). set (f9 := upd "theta_opt" _ f8) in H9.
    destruct (others_inserted (w_other r) [] f9 d9 eq_refl) as [d10 [f10 [E10 [H10 [O10 S10]]]]].
    { intros k v t I. destruct (other_key _ _ _ I) as [_ N].
      assert (X : forall s, In s reserved -> String.eqb k s = false) by (intros s Hs; apply String.eqb_neq; intros ->; contradiction).
      unfold f9, f8, f7, upd. rewrite !X by (simpl; tauto). reflexivity. }
    { exact H9. }
    rewrite E10. exists d10. split; [reflexivity|]. eapply holds_ext; [|exact H10]. intros k Ik.
    apply in_app_iff in Ik. destruct Ik as [Ik|Ik].
    - rewrite O10 by (intros X; exact (NoDup_app_disjoint _ _ _ k (cp_keys _ Cp) Ik X)).
      destruct Ik as [<-|[<-|[<-|[<-|[]]]]]; reflexivity.
    - apply in_map_iff in Ik. destruct Ik as [[k' [v t]] [<- I]]. cbn [fst]. rewrite (S10 _ _ _ I).
      destruct (other_key _ _ _ I) as [Eo N].
      assert (X : forall s, In s reserved -> String.eqb k' s = false) by (intros s Hs; apply String.eqb_neq; intros ->; contradiction).
      unfold final. rewrite !X by (simpl; tauto). rewrite Eo. reflexivity.
  Qed.

  Lemma expected_final : forall k l, expected r k l -> In k keys /\ l = final k.
  Proof.
    intros k l [[-> ->]|[[-> ->]|[[-> ->]|[[-> ->]|[v [t [I ->]]]]]]]; try (split; [apply in_reserved; simpl; tauto | reflexivity]).
    destruct (other_key _ _ _ I) as [Eo N]. split; [apply in_app_iff; right; apply in_map_iff; exists (k, (v, t)); split; [reflexivity | exact I]|].
    assert (X : forall s, In s reserved -> String.eqb k s = false) by (intros s Hs; apply String.eqb_neq; intros ->; contradiction).
    unfold final. rewrite !X by (simpl; tauto). rewrite Eo. reflexivity.
  Qed.
End Dataset.

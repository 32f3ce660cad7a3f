(** Proofs about the time grid, the layout of the decision variables and the
    parameters of the NLP. *)
From Coq Require Import String Lqa.
From Verif Require Import Base BaseProofs UtilModel ExprModel NlpModel NlpSpec NlpProofs SysModel
  SysSpec SysProofs SimModel OcpModel OcpSpec OcpMoreProofs LagModel DiscModel DiscSpec.
Local Open Scope list_scope.
Local Open Scope nat_scope.

(** ** Lists of blocks *)

Lemma map_repeat : forall (A B : Type) (f : A -> B) a n, map f (repeat a n) = repeat (f a) n.
Proof. intros A B f a n. induction n as [|n IH]; [reflexivity|]. simpl. rewrite IH. reflexivity. Qed.

Lemma concat_concat : forall (A : Type) (l : list (list (list A))),
    concat (concat l) = concat (map (@concat A) l).
Proof.
  intros A l. induction l as [|a l IH]; [reflexivity|]. simpl. rewrite concat_app, IH. reflexivity.
Qed.

Lemma rows_concat_length : forall (A : Type) n d (l : list (list A)),
    rows n d l -> length (concat l) = n * d.
Proof.
  intros A n d l [<- H]. induction H as [|v l Hv Hl IH]; [reflexivity|].
  simpl. rewrite app_length, IH, Hv. reflexivity.
Qed.

Lemma grid_rows : forall (A : Type) n m d (l : list (list (list A))),
    grid n m d l -> rows n (m * d) (map (@concat A) l).
Proof.
  intros A n m d l [<- H]. split; [apply map_length|]. apply Forall_map.
  eapply Forall_impl; [|exact H]. intros r Hr. apply rows_concat_length, Hr.
Qed.
Lemma grid_concat_length : forall (A : Type) n m d (l : list (list (list A))),
    grid n m d l -> length (concat (concat l)) = n * (m * d).
Proof. intros. rewrite concat_concat. apply rows_concat_length, grid_rows. assumption. Qed.

Lemma rows_concat_inj : forall (A : Type) n d (l l' : list (list A)),
    rows n d l -> rows n d l' -> concat l = concat l' -> l = l'.
Proof.
  intros A n d l. revert n. induction l as [|a l IH]; intros n l' [<- H] [Hl' H'] E.
  - destruct l'; [reflexivity | discriminate].
  - destruct l' as [|b l']; [discriminate|]. inversion H as [|? ? Ha Hl]; subst. inversion H' as [|? ? Hb Hl2]; subst.
    simpl in E. assert (Eab : a = b /\ concat l = concat l').
    { clear - E Hb. revert b Hb E. induction a as [|x a IHa]; intros [|y b] Hb E; simpl in *; try discriminate.
      - split; [reflexivity | exact E].
      - injection E as -> E. destruct (IHa b (f_equal pred Hb) E) as [-> E']. split; [reflexivity | exact E']. }
    destruct Eab as [-> E']. f_equal. apply (IH (length l)); [split; [reflexivity | assumption] | | exact E'].
    split; [simpl in Hl'; lia | assumption].
Qed.
Lemma grid_concat_inj : forall (A : Type) n m d (l l' : list (list (list A))),
    grid n m d l -> grid n m d l' -> concat (concat l) = concat (concat l') -> l = l'.
Proof.
  intros A n m d l l' H H' E. rewrite !concat_concat in E.
  assert (E' := rows_concat_inj _ _ _ _ _ (grid_rows _ _ _ _ _ H) (grid_rows _ _ _ _ _ H') E).
  destruct H as [_ H], H' as [_ H']. clear E. revert l' H' E'.
  induction H as [|a l Ha Hl IH]; intros [|b l'] H' E'; try discriminate; [reflexivity|].
  inversion H' as [|? ? Hb Hl']; subst. injection E' as E1 E2. f_equal; [|apply IH; assumption].
  apply (rows_concat_inj _ _ _ _ _ Ha Hb E1).
Qed.

Lemma rows_entry : forall (A : Type) n d (l : list (list A)) e i a,
    rows n d l -> entry2 l e i = Some a -> nth_error (concat l) (e * d + i) = Some a.
Proof.
  intros A n d l e i a [<- H]. unfold entry2. revert e. induction H as [|v l Hv Hl IH]; intros e E.
  - destruct e; discriminate.
  - destruct e as [|e].
    + simpl in *. rewrite nth_error_app1; [exact E|]. apply nth_error_Some. rewrite E. discriminate.
    + simpl in *. rewrite nth_error_app2 by lia. rewrite Hv.
      replace (d + e * d + i - d) with (e * d + i) by lia. apply IH, E.
Qed.
Lemma grid_entry : forall (A : Type) n m d (l : list (list (list A))) e j i a,
    grid n m d l -> entry l e j i = Some a -> nth_error (concat (concat l)) ((e * m + j) * d + i) = Some a.
Proof.
  intros A n m d l e j i a H E. rewrite concat_concat.
  replace ((e * m + j) * d + i) with (e * (m * d) + (j * d + i)) by nia.
  apply (rows_entry _ n (m * d)); [apply grid_rows, H|]. unfold entry2, entry in *.
  rewrite nth_error_map. destruct (nth_error l e) as [r|] eqn:Er; [|discriminate]. simpl.
  destruct H as [_ H]. rewrite Forall_forall in H. apply (rows_entry _ m d).
  - apply H. apply nth_error_In in Er. exact Er.
  - exact E.
Qed.

(** ** Flattening *)

Lemma control_count_eq : forall k, (if (0 <? n_u_par k) then k_degree_control k else 0) = control_count k.
Proof. intros k. unfold control_count, n_u_par. destruct (m_u_par (k_model k)); reflexivity. Qed.

Lemma flatten_length : forall (A : Type) k ne nx ny (r : traj A), shaped k ne nx ny r ->
    length (flatten r) =
    ne * (nx * n_x k) + k_elements k * (ny * n_y k) + k_elements k * (control_count k * n_u k) +
    n_eta k + n_p_opt k + k_elements k * n_theta_opt k.
Proof.
  intros A k ne nx ny r [Hx [Hy [Hu [He [Hp Ht]]]]]. unfold flatten. rewrite !app_length.
  rewrite (grid_concat_length _ _ _ _ _ Hx), (grid_concat_length _ _ _ _ _ Hy), (grid_concat_length _ _ _ _ _ Hu).
  rewrite (rows_concat_length _ _ _ _ Ht), He, Hp. lia.
Qed.

Lemma app_inj_len : forall (A : Type) (a b c d : list A), length a = length c -> a ++ b = c ++ d -> a = c /\ b = d.
Proof.
  intros A a. induction a as [|x a IH]; intros b [|y c] d Hl E; simpl in *; try discriminate.
  - split; [reflexivity | exact E].
  - injection E as -> E. injection Hl as Hl. destruct (IH b c d Hl E) as [-> ->]. split; reflexivity.
Qed.

Lemma flatten_inj : forall (A : Type) k ne nx ny (r r' : traj A),
    shaped k ne nx ny r -> shaped k ne nx ny r' -> flatten r = flatten r' -> r = r'.
Proof.
  intros A k ne nx ny r r' [Hx [Hy [Hu [He [Hp Ht]]]]] [Hx' [Hy' [Hu' [He' [Hp' Ht']]]]] E. unfold flatten in E.
  apply app_inj_len in E; [|rewrite (grid_concat_length _ _ _ _ _ Hx), (grid_concat_length _ _ _ _ _ Hx'); reflexivity].
  destruct E as [E1 E].
  apply app_inj_len in E; [|rewrite (grid_concat_length _ _ _ _ _ Hy), (grid_concat_length _ _ _ _ _ Hy'); reflexivity].
  destruct E as [E2 E].
  apply app_inj_len in E; [|rewrite (grid_concat_length _ _ _ _ _ Hu), (grid_concat_length _ _ _ _ _ Hu'); reflexivity].
  destruct E as [E3 E].
  apply app_inj_len in E; [|congruence]. destruct E as [E4 E].
  apply app_inj_len in E; [|congruence]. destruct E as [E5 E].
  apply (grid_concat_inj _ _ _ _ _ _ Hx Hx') in E1. apply (grid_concat_inj _ _ _ _ _ _ Hy Hy') in E2.
  apply (grid_concat_inj _ _ _ _ _ _ Hu Hu') in E3. apply (rows_concat_inj _ _ _ _ _ Ht Ht') in E.
  destruct r, r'; simpl in *. congruence.
Qed.

Lemma nth_error_app_r : forall (A : Type) (a b : list A) n i, length a = n ->
    nth_error (a ++ b) (n + i) = nth_error b i.
Proof. intros A a b n i <-. rewrite nth_error_app2 by lia. f_equal. lia. Qed.
Lemma nth_error_app_l : forall (A : Type) (a b : list A) i x, nth_error a i = Some x ->
    nth_error (a ++ b) i = Some x.
Proof. intros. rewrite nth_error_app1; [assumption|]. apply nth_error_Some. congruence. Qed.

Lemma flatten_places : forall (A : Type) k ne nx ny (r : traj A), shaped k ne nx ny r ->
    stands_at k ne nx ny (flatten r) r.
Proof.
  intros A k ne nx ny r [Hx [Hy [Hu [He [Hp Ht]]]]]. unfold stands_at, flatten.
  assert (Lx := grid_concat_length _ _ _ _ _ Hx). assert (Ly := grid_concat_length _ _ _ _ _ Hy).
  assert (Lu := grid_concat_length _ _ _ _ _ Hu). unfold theta_offset, p_offset, eta_offset, u_offset, y_offset.
  split; [|split; [|split; [|split; [|split]]]].
  - intros e j i a E. apply nth_error_app_l. apply (grid_entry _ _ _ _ _ _ _ _ _ Hx E).
  - intros e j i a E. rewrite <- Nat.add_assoc, (nth_error_app_r _ _ _ _ _ Lx).
    apply nth_error_app_l. apply (grid_entry _ _ _ _ _ _ _ _ _ Hy E).
  - intros e j i a E. rewrite <- !Nat.add_assoc, (nth_error_app_r _ _ _ _ _ Lx), (nth_error_app_r _ _ _ _ _ Ly).
    apply nth_error_app_l. apply (grid_entry _ _ _ _ _ _ _ _ _ Hu E).
  - intros i a E. rewrite <- !Nat.add_assoc, (nth_error_app_r _ _ _ _ _ Lx), (nth_error_app_r _ _ _ _ _ Ly),
      (nth_error_app_r _ _ _ _ _ Lu). apply nth_error_app_l, E.
  - intros i a E. rewrite <- !Nat.add_assoc, (nth_error_app_r _ _ _ _ _ Lx), (nth_error_app_r _ _ _ _ _ Ly),
      (nth_error_app_r _ _ _ _ _ Lu), (nth_error_app_r _ _ _ _ _ He). apply nth_error_app_l, E.
  - intros e i a E. rewrite <- !Nat.add_assoc, (nth_error_app_r _ _ _ _ _ Lx), (nth_error_app_r _ _ _ _ _ Ly),
      (nth_error_app_r _ _ _ _ _ Lu), (nth_error_app_r _ _ _ _ _ He), (nth_error_app_r _ _ _ _ _ Hp).
    apply (rows_entry _ _ _ _ _ _ _ Ht E).
Qed.

(** ** Reading *)

(** A reader of [N] entries: it succeeds when they are there and gives a shaped value
    made of exactly those entries. *)
Definition reader {A B : Type} (v : list A) (c : cmd nat B) (N : nat) (P : B -> Prop) (phi : B -> list A) : Prop :=
  (forall off, off + N <= length v ->
     exists b, c off = (off + N, Ok b) /\ P b /\ phi b = firstn N (skipn off v)) /\
  (forall off, off <= length v < off + N -> exists s, c off = (s, Raise CasadiError)).

Lemma firstn_skipn_add : forall (A : Type) n m (v : list A),
    firstn (n + m) v = firstn n v ++ firstn m (skipn n v).
Proof.
  intros A n. induction n as [|n IH]; intros m v; [reflexivity|].
  destruct v as [|a v]; [simpl; rewrite firstn_nil; reflexivity|]. simpl. rewrite IH. reflexivity.
Qed.
Lemma skipn_add : forall (A : Type) n m (v : list A), skipn m (skipn n v) = skipn (n + m) v.
Proof.
  intros A n. induction n as [|n IH]; intros m v; [reflexivity|].
  destruct v as [|a v]; [simpl; apply skipn_nil|]. simpl. apply IH.
Qed.

Lemma reader_read : forall (A : Type) (v : list A) n,
    reader v (read v n) n (fun b => length b = n) (fun b => b).
Proof.
  intros A v n. unfold reader, read, slice. split.
  - intros off H. exists (firstn n (skipn off v)). destruct (Nat.leb_spec (off + n) (length v)) as [_|]; [|lia].
    replace (off + n - off) with n by lia. split; [reflexivity|]. split; [|reflexivity].
    rewrite firstn_length, skipn_length. lia.
  - intros off H. exists off. destruct (Nat.leb_spec (off + n) (length v)); [lia | reflexivity].
Qed.

Lemma reader_replicate : forall (A B : Type) (v : list A) (c : cmd nat B) N P phi n,
    reader v c N P phi ->
    reader v (creplicate n c) (n * N) (fun l => length l = n /\ Forall P l) (fun l => concat (map phi l)).
Proof.
  intros A B v c N P phi n [H1 H2]. induction n as [|n [IH1 IH2]].
  - split.
    + intros off Hoff. exists []. unfold creplicate, cret. rewrite Nat.add_0_r. split; [reflexivity|].
      split; [split; [reflexivity | constructor] | reflexivity].
    + intros off Hoff. lia.
  - split.
    + intros off Hoff. destruct (H1 off) as [b [E [Hb Hphi]]]; [simpl in Hoff; lia|].
      destruct (IH1 (off + N)) as [l [El [[Hl HP] Hc]]]; [simpl in Hoff; lia|].
      exists (b :: l). simpl. unfold cbind. rewrite E, El. unfold cret. split; [f_equal; lia|].
      split; [split; [simpl; congruence | constructor; assumption]|].
      rewrite Hphi, Hc, firstn_skipn_add, skipn_add. reflexivity.
    + intros off Hoff. simpl. unfold cbind. destruct (le_lt_dec (off + N) (length v)) as [Hle|Hlt].
      * destruct (H1 off Hle) as [b [E _]]. rewrite E. destruct (IH2 (off + N)) as [s Es]; [simpl in Hoff; lia|].
        exists s. rewrite Es. reflexivity.
      * destruct (H2 off) as [s Es]; [lia|]. exists s. rewrite Es. reflexivity.
Qed.

Lemma reader_weaken : forall (A B : Type) (v : list A) (c : cmd nat B) N N' (P P' : B -> Prop) phi phi',
    reader v c N P phi -> N = N' -> (forall b, P b -> P' b) -> (forall b, phi' b = phi b) ->
    reader v c N' P' phi'.
Proof.
  intros A B v c N N' P P' phi phi' [H1 H2] <- HP Hphi. split; [|exact H2].
  intros off Hoff. destruct (H1 off Hoff) as [b [E [Hb Hb']]]. exists b. split; [exact E|]. split; [apply HP, Hb|].
  rewrite Hphi. exact Hb'.
Qed.

Lemma reader_rows : forall (A : Type) (v : list A) n d,
    reader v (creplicate n (read v d)) (n * d) (rows n d) (@concat A).
Proof.
  intros A v n d. eapply reader_weaken; [apply reader_replicate, reader_read | reflexivity | |].
  - intros b H. exact H.
  - intros b. simpl. rewrite map_id. reflexivity.
Qed.
Lemma reader_grid : forall (A : Type) (v : list A) n m d,
    reader v (creplicate n (creplicate m (read v d))) (n * (m * d)) (grid n m d) (fun l => concat (concat l)).
Proof.
  intros A v n m d. eapply reader_weaken; [apply reader_replicate, reader_rows | reflexivity | |].
  - intros b H. exact H.
  - intros b. apply concat_concat.
Qed.

(** Two readers one after the other. *)
Lemma reader_step : forall (A B C : Type) (v : list A) (c : cmd nat B) N P phi (f : B -> cmd nat C) off M,
    reader v c N P phi -> off <= length v ->
    (off + N + M <= length v ->
       exists b, cbind c f off = f b (off + N) /\ P b /\ phi b = firstn N (skipn off v)) /\
    (length v < off + N -> exists s, cbind c f off = (s, Raise CasadiError)).
Proof.
  intros A B C v c N P phi f off M [H1 H2] Hoff. split.
  - intros H. destruct (H1 off) as [b [E [Hb Hphi]]]; [lia|]. exists b. unfold cbind. rewrite E. tauto.
  - intros H. destruct (H2 off) as [s E]; [lia|]. exists s. unfold cbind. rewrite E. reflexivity.
Qed.

(** A command that reads the last [M] entries and checks that nothing is left. *)
Definition finisher {A B : Type} (v : list A) (c : cmd nat B) (M : nat) (R : B -> list A -> Prop) : Prop :=
  forall off,
    (length v = off + M -> exists b, snd (c off) = Ok b /\ R b (skipn off v)) /\
    (off <= length v < off + M -> snd (c off) = Raise CasadiError) /\
    (off + M < length v -> snd (c off) = Raise AssertionError).

Lemma finisher_bind : forall (A B C : Type) (v : list A) (c : cmd nat B) N P phi (f : B -> cmd nat C) M R,
    reader v c N P phi -> (forall b, P b -> finisher v (f b) M (fun r w => R r (phi b ++ w))) ->
    finisher v (cbind c f) (N + M) R.
Proof.
  intros A B C v c N P phi f M R [H1 H2] Hf off. unfold cbind.
  assert (Hstep : off + N <= length v -> exists b, c off = (off + N, Ok b) /\ P b /\ phi b = firstn N (skipn off v))
    by (intros; apply H1; assumption).
  split; [|split].
  - intros HL. destruct Hstep as [b [E [Hb Hphi]]]; [lia|]. rewrite E.
    destruct (Hf b Hb (off + N)) as [G _]. destruct G as [r [Er Hr]]; [lia|]. exists r. split; [exact Er|].
    rewrite Hphi, <- skipn_add, firstn_skipn in Hr. exact Hr.
  - intros HL. destruct (le_lt_dec (off + N) (length v)) as [Hle|Hlt].
    + destruct (Hstep Hle) as [b [E [Hb _]]]. rewrite E. destruct (Hf b Hb (off + N)) as [_ [G _]]. apply G. lia.
    + destruct (H2 off) as [s E]; [lia|]. rewrite E. reflexivity.
  - intros HL. destruct Hstep as [b [E [Hb _]]]; [lia|]. rewrite E.
    destruct (Hf b Hb (off + N)) as [_ [_ G]]. apply G. lia.
Qed.

Lemma finisher_end : forall (A B : Type) (v : list A) (b : B) (R : B -> list A -> Prop),
    R b [] ->
    finisher v (cbind (cguard (fun off => negb (off =? length v)) AssertionError) (fun _ => cret b)) 0 R.
Proof.
  intros A B v b R HR off. unfold cbind, cguard, cret. destruct (Nat.eqb_spec off (length v)) as [->|Hne]; simpl.
  - split; [|split; [lia | lia]]. intros _. exists b. split; [reflexivity|]. rewrite skipn_all. exact HR.
  - split; [lia | split; [lia|]]. intros _. reflexivity.
Qed.

Lemma finisher_weaken : forall (A B : Type) (v : list A) (c : cmd nat B) M M' (R R' : B -> list A -> Prop),
    finisher v c M R -> M = M' -> (forall b w, R b w -> R' b w) -> finisher v c M' R'.
Proof.
  intros A B v c M M' R R' H <- HR off. destruct (H off) as [H1 H2]. split; [|exact H2].
  intros HL. destruct (H1 HL) as [b [E Hb]]. exists b. split; [exact E | apply HR, Hb].
Qed.

Definition others_size (k : method) : nat := n_eta k + (n_p_opt k + k_elements k * n_theta_opt k).

Lemma others_finisher : forall (A : Type) k (v : list A) x y u,
    finisher v (read_others k v x y u) (others_size k)
      (fun r w => exists eta p th, r = mkTraj x y u eta p th /\ w = eta ++ p ++ concat th /\
                    length eta = n_eta k /\ length p = n_p_opt k /\ rows (k_elements k) (n_theta_opt k) th).
Proof.
  intros A k v x y u. unfold read_others, others_size.
  eapply finisher_weaken with (M := n_eta k + (n_p_opt k + (k_elements k * n_theta_opt k + 0)));
    [|lia|intros b w H; exact H].
  eapply finisher_bind; [apply reader_read|]. intros eta Heta. cbv beta.
  eapply finisher_bind; [apply reader_read|]. intros p Hp. cbv beta.
  eapply finisher_bind; [apply reader_rows|]. intros th Hth.
  apply finisher_end. exists eta, p, th. rewrite app_nil_r. tauto.
Qed.

Lemma read_controls_reader : forall (A : Type) k (v : list A),
    reader v (read_controls k v) (k_elements k * (control_count k * n_u k))
      (grid (k_elements k) (control_count k) (n_u k)) (fun l => concat (concat l)).
Proof. intros A k v. unfold read_controls. rewrite control_count_eq. apply reader_grid. Qed.

Lemma rest_finisher : forall (A : Type) k (v : list A) x ny,
    finisher v
      (cbind (creplicate (k_elements k) (creplicate ny (read v (n_y k))))
         (fun y => cbind (read_controls k v) (fun u => read_others k v x y u)))
      (k_elements k * (ny * n_y k) + (k_elements k * (control_count k * n_u k) + others_size k))
      (fun r w => exists y u eta p th, r = mkTraj x y u eta p th /\
                    w = concat (concat y) ++ concat (concat u) ++ eta ++ p ++ concat th /\
                    grid (k_elements k) ny (n_y k) y /\ grid (k_elements k) (control_count k) (n_u k) u /\
                    length eta = n_eta k /\ length p = n_p_opt k /\ rows (k_elements k) (n_theta_opt k) th).
Proof.
  intros A k v x ny. eapply finisher_bind; [apply reader_grid|]. intros y Hy. cbv beta.
  eapply finisher_bind; [apply read_controls_reader|]. intros u Hu. cbv beta.
  eapply finisher_weaken; [apply others_finisher | reflexivity|].
  intros r w [eta [p [th [-> [-> H]]]]]. exists y, u, eta, p, th. tauto.
Qed.

(** *** Multiple shooting *)

Lemma shooting_unpack_spec : forall (A : Type) k (v : list A),
    (length v = shooting_size k ->
       exists r, shooting_unpack k v = Ok r /\ shooting_shape k r /\ flatten r = v) /\
    (length v < shooting_size k -> shooting_unpack k v = Raise CasadiError) /\
    (shooting_size k < length v -> shooting_unpack k v = Raise AssertionError).
Proof.
  intros A k v. unfold shooting_unpack.
  assert (H : finisher v
     (cbind (creplicate (k_elements k + 1) (creplicate 1 (read v (n_x k))))
        (fun x => cbind (creplicate (k_elements k) (creplicate 1 (read v (n_y k))))
           (fun y => cbind (read_controls k v) (fun u => read_others k v x y u))))
     (shooting_size k) (fun r w => shooting_shape k r /\ flatten r = w)).
  { eapply (finisher_weaken _ _ _ _ _ _ (fun r w => shooting_shape k r /\ flatten r = w));
      [eapply finisher_bind; [apply reader_grid|]| |].
    - intros x Hx. cbv beta.
      eapply (finisher_weaken _ _ _ _ _ _ _ (fun r w => shooting_shape k r /\ flatten r = concat (concat x) ++ w));
        [apply rest_finisher | reflexivity|].
      intros r w [y [u [eta [p [th [-> [-> H]]]]]]].
      split; [|reflexivity]. unfold shooting_shape, shaped. simpl. tauto.
    - unfold shooting_size, others_size. lia.
    - intros b w Hb. exact Hb. }
  destruct (H 0) as [H1 [H2 H3]]. split; [|split].
  - intros HL. apply H1. exact HL.
  - intros HL. apply H2. lia.
  - intros HL. apply H3. lia.
Qed.

Lemma shooting_unpack_flatten : forall (A : Type) k (r : traj A),
    shooting_shape k r -> shooting_unpack k (flatten r) = Ok r.
Proof.
  intros A k r H. destruct (shooting_unpack_spec A k (flatten r)) as [H1 _].
  destruct H1 as [r' [E [Hs Hf]]].
  - rewrite (flatten_length _ _ _ _ _ _ H). unfold shooting_size. lia.
  - rewrite E. f_equal. apply (flatten_inj _ _ _ _ _ _ _ Hs H Hf).
Qed.

(** *** Collocation *)

Lemma grid_last : forall (A : Type) n m d (x : list (list (list A))), grid (S n) (S m) d x ->
    exists before e l, x = before ++ [e ++ [l]] /\ rev (concat x) = l :: rev (concat before ++ e).
Proof.
  intros A n m d x [Hl H]. destruct x as [|a x0] using rev_ind; [discriminate|]. clear IHx0.
  apply Forall_app in H. destruct H as [_ H]. inversion H as [|? ? Ha _]; subst. destruct Ha as [Hm _].
  destruct a as [|l e] using rev_ind; [discriminate|]. clear IHe.
  exists x0, e, l. split; [reflexivity|]. rewrite concat_app. simpl. rewrite app_nil_r, app_assoc, rev_app_distr.
  reflexivity.
Qed.

Lemma collocation_unpack_spec : forall (A : Type) k (v : list A), k_elements k <> 0 ->
    (length v = collocation_size k ->
       exists r, collocation_unpack k v = Ok (with_last_state r) /\ collocation_shape k r /\ flatten r = v) /\
    (length v < collocation_size k -> collocation_unpack k v = Raise CasadiError) /\
    (collocation_size k < length v -> collocation_unpack k v = Raise AssertionError).
Proof.
  intros A k v Hk. unfold collocation_unpack.
  match goal with |- context [snd (?c 0)] => set (cc := c) end.
  assert (H : finisher v cc
     (collocation_size k)
     (fun r' w => exists r, collocation_shape k r /\ r' = with_last_state r /\ flatten r = w)).
  { unfold cc. eapply (finisher_weaken _ _ _ _ _ _
      (fun r' w => exists r, collocation_shape k r /\ r' = with_last_state r /\ flatten r = w));
      [eapply finisher_bind; [apply reader_grid|]| |].
    - intros x Hx. cbv beta. destruct (k_elements k) as [|n] eqn:En; [contradiction|].
      rewrite Nat.add_1_r in Hx. destruct (grid_last _ _ _ _ _ Hx) as [before [e [l [Ex Er]]]].
      rewrite Er. unfold cbind at 1. cbn [cret]. rewrite <- En.
      eapply (finisher_weaken _ _ _ _ _ _ _
        (fun r' w => exists r, collocation_shape k r /\ r' = with_last_state r /\ flatten r = concat (concat x) ++ w));
        [apply rest_finisher | reflexivity|].
      intros r w [y [u [eta [p [th [-> [-> H]]]]]]]. exists (mkTraj x y u eta p th).
      split; [|split; [|reflexivity]].
      + unfold collocation_shape, shaped. simpl. rewrite En, Nat.add_1_r. rewrite En in H. tauto.
      + unfold with_last_state. simpl. rewrite Ex at 3. rewrite !last_last. reflexivity.
    - unfold collocation_size, others_size. lia.
    - intros b w Hb. exact Hb. }
  destruct (H 0) as [H1 [H2 H3]]. split; [|split].
  - intros HL. destruct (H1 HL) as [r' [E [r [Hs [-> Hf]]]]]. exists r. tauto.
  - intros HL. apply H2. lia.
  - intros HL. apply H3. lia.
Qed.

Lemma collocation_unpack_flatten : forall (A : Type) k (r : traj A), k_elements k <> 0 ->
    collocation_shape k r -> collocation_unpack k (flatten r) = Ok (with_last_state r).
Proof.
  intros A k r Hk H. destruct (collocation_unpack_spec A k (flatten r) Hk) as [H1 _].
  destruct H1 as [r' [E [Hs Hf]]].
  - rewrite (flatten_length _ _ _ _ _ _ H). unfold collocation_size. lia.
  - rewrite E. do 2 f_equal. apply (flatten_inj _ _ _ _ _ _ _ Hs H Hf).
Qed.

Lemma repack_flatten : forall (A : Type) (r : traj A), collocation_repack (with_last_state r) = flatten r.
Proof.
  intros A r. unfold collocation_repack, with_last_state, flatten. cbn [r_x r_y r_u r_eta r_p r_theta].
  rewrite removelast_last, !concat_app. simpl. rewrite <- !app_assoc. reflexivity.
Qed.

Lemma collocation_roundtrip : forall (A : Type) k (v : list A) r, k_elements k <> 0 ->
    collocation_unpack k v = Ok r -> collocation_repack r = v.
Proof.
  intros A k v r Hk H. destruct (collocation_unpack_spec A k v Hk) as [H1 [H2 H3]].
  destruct (Nat.lt_trichotomy (length v) (collocation_size k)) as [L|[L|L]].
  - rewrite H2 in H by exact L. discriminate.
  - destruct (H1 L) as [r' [E [_ Hf]]]. rewrite E in H. injection H as <-. rewrite repack_flatten. exact Hf.
  - rewrite H3 in H by exact L. discriminate.
Qed.
Lemma shooting_roundtrip : forall (A : Type) k (v : list A) r,
    shooting_unpack k v = Ok r -> shooting_shape k r /\ flatten r = v.
Proof.
  intros A k v r H. destruct (shooting_unpack_spec A k v) as [H1 [H2 H3]].
  destruct (Nat.lt_trichotomy (length v) (shooting_size k)) as [L|[L|L]].
  - rewrite H2 in H by exact L. discriminate.
  - destruct (H1 L) as [r' [E Hf]]. rewrite E in H. injection H as <-. exact Hf.
  - rewrite H3 in H by exact L. discriminate.
Qed.
Lemma collocation_no_elements : forall (A : Type) k (v : list A), k_elements k = 0 ->
    collocation_unpack k v = Raise IndexError.
Proof. intros A k v H. unfold collocation_unpack. rewrite H. reflexivity. Qed.

(** ** Creating the variables *)

Definition add_variables (s : nlp) (v : list sym) (lo hi : list bnd) : nlp :=
  mkNlp (nx s ++ v) (nx_lb s ++ lo) (nx_ub s ++ hi) (ng s) (ng_lb s) (ng_ub s) (np s) (nf s) (nsolver s).
Definition creator {B : Type} (c : cmd nlp_state B) (N : nat) (P : B -> Prop) (phi : B -> list sym)
    (lo hi : list ext) : Prop :=
  forall s n, exists b,
    c (s, n) = (@pair nlp sym (add_variables s (phi b) (map BNum lo) (map BNum hi)) (n + N), Ok b) /\
    P b /\ phi b = seq n N.

Lemma ext_ltb_le : forall a b, ext_le a b -> ext_ltb b a = false.
Proof.
  intros [|x|] [|y|]; simpl; try reflexivity; try tauto. intros H.
  apply Qle_bool_iff in H. rewrite H. reflexivity.
Qed.
Lemma bounds_loop_in_order : forall lo hi, in_order lo hi -> bounds_loop (map BNum lo) (map BNum hi) = Ok tt.
Proof.
  induction lo as [|a lo IH]; intros [|b hi] H; simpl; try reflexivity.
  rewrite (ext_ltb_le a b) by (apply (H 0); reflexivity). apply IH.
  intros i x y Hx Hy. apply (H (S i)); assumption.
Qed.
Lemma constant_numbers : forall l, bnds_constant (map BNum l) = true.
Proof. induction l as [|a l IH]; [reflexivity | exact IH]. Qed.
Lemma spread_same : forall (l : list bnd) n, length l = n -> spread l n = l.
Proof.
  intros l n <-. unfold spread. destruct (Nat.eqb_spec (length l) 1) as [->|]; reflexivity.
Qed.

Lemma creator_variable : forall n lo hi, length lo = n -> length hi = n -> in_order lo hi ->
    creator (nlp_variable n (bounds_arg lo) (bounds_arg hi)) n (fun b => length b = n) (fun b => b) lo hi.
Proof.
  intros n lo hi Hlo Hhi Ho s c. exists (seq c n). unfold nlp_variable, fresh, on_nlp, cbind, cret. cbn [fst snd].
  unfold NlpModel.create_variable, include_variable, bounds_arg. cbn [variable_bound].
  rewrite seq_length, !spread_same by (rewrite map_length; assumption). rewrite !map_length, Hlo, Hhi, Nat.eqb_refl.
  cbn [negb orb]. rewrite !constant_numbers. cbn [negb andb orb]. rewrite (bounds_loop_in_order lo hi Ho).
  split; [reflexivity|]. split; reflexivity.
Qed.

Lemma creator_free : forall n,
    creator (nlp_variable n (AFloat NInf) (AFloat PInf)) n (fun b => length b = n) (fun b => b)
      (repeat NInf n) (repeat PInf n).
Proof.
  intros n s c.
  assert (E : nlp_variable n (AFloat NInf) (AFloat PInf) (s, c) =
              nlp_variable n (bounds_arg (repeat NInf n)) (bounds_arg (repeat PInf n)) (s, c)).
  { unfold nlp_variable, fresh, on_nlp, cbind, cret, NlpModel.create_variable, bounds_arg. cbn [fst snd].
    rewrite seq_length, !repmat_single, !map_repeat. reflexivity. }
  rewrite E. apply creator_variable; [apply repeat_length | apply repeat_length|].
  intros i a b Ha _. apply nth_error_In, repeat_spec in Ha. subst. exact I.
Qed.

Lemma add_variables_nil : forall s, add_variables s [] [] [] = s.
Proof. intros [? ? ? ? ? ? ? ? ?]. unfold add_variables. simpl. rewrite !app_nil_r. reflexivity. Qed.
Lemma add_variables_app : forall s v lo hi v' lo' hi',
    add_variables (add_variables s v lo hi) v' lo' hi' = add_variables s (v ++ v') (lo ++ lo') (hi ++ hi').
Proof. intros. unfold add_variables. simpl. rewrite !app_assoc. reflexivity. Qed.

Lemma creator_replicate : forall (B : Type) (c : cmd nlp_state B) N P phi lo hi n,
    creator c N P phi lo hi ->
    creator (creplicate n c) (n * N) (fun l => length l = n /\ Forall P l) (fun l => concat (map phi l))
      (concat (repeat lo n)) (concat (repeat hi n)).
Proof.
  intros B c N P phi lo hi n H. induction n as [|n IH]; intros s m.
  - exists []. simpl. unfold cret. rewrite add_variables_nil, Nat.add_0_r.
    split; [reflexivity|]. split; [split; [reflexivity | constructor] | reflexivity].
  - destruct (H s m) as [b [E [Hb Hphi]]].
    destruct (IH (add_variables s (phi b) (map BNum lo) (map BNum hi)) (m + N)) as [l [El [[Hl HP] Hc]]].
    exists (b :: l). simpl. unfold cbind. rewrite E, El. unfold cret. rewrite add_variables_app, !map_app.
    split; [do 2 f_equal; lia|]. split; [split; [simpl; congruence | constructor; assumption]|].
    rewrite Hphi, Hc, seq_app. reflexivity.
Qed.

Lemma creator_weaken : forall (B : Type) (c : cmd nlp_state B) N N' (P P' : B -> Prop) phi phi' lo lo' hi hi',
    creator c N P phi lo hi -> N = N' -> (forall b, P b -> P' b) -> (forall b, phi' b = phi b) ->
    lo = lo' -> hi = hi' -> creator c N' P' phi' lo' hi'.
Proof.
  intros B c N N' P P' phi phi' lo lo' hi hi' H <- HP Hphi <- <- s n. destruct (H s n) as [b [E [Hb Hb']]].
  exists b. rewrite Hphi. split; [exact E|]. split; [apply HP, Hb | exact Hb'].
Qed.

Lemma creator_rows : forall n d lo hi, length lo = d -> length hi = d -> in_order lo hi ->
    creator (creplicate n (nlp_variable d (bounds_arg lo) (bounds_arg hi))) (n * d) (rows n d) (@concat sym)
      (concat (repeat lo n)) (concat (repeat hi n)).
Proof.
  intros n d lo hi H1 H2 Ho. eapply creator_weaken; [apply creator_replicate, creator_variable; eassumption
    | reflexivity | intros b H; exact H | | reflexivity | reflexivity].
  intros b. simpl. rewrite map_id. reflexivity.
Qed.
Lemma creator_grid : forall n m d lo hi, length lo = d -> length hi = d -> in_order lo hi ->
    creator (creplicate n (creplicate m (nlp_variable d (bounds_arg lo) (bounds_arg hi)))) (n * (m * d)) (grid n m d)
      (fun l => concat (concat l)) (concat (concat (repeat (repeat lo m) n))) (concat (concat (repeat (repeat hi m) n))).
Proof.
  intros n m d lo hi H1 H2 Ho. eapply creator_weaken; [apply creator_replicate, creator_rows; eassumption
    | reflexivity | intros b H; exact H | | |].
  - intros b. apply concat_concat.
  - rewrite concat_concat, map_repeat. reflexivity.
  - rewrite concat_concat, map_repeat. reflexivity.
Qed.

(** All variables of a scheme. *)
Definition variables (k : method) (ne nx ny : nat) : cmd nlp_state (traj sym) :=
  cbind (create_states k ne nx) (fun x => cbind (create_algebraics k ny)
    (fun y => cbind (create_controls k) (fun u => create_others k x y u))).

Lemma variables_spec : forall k ne nx ny s n, well_bounded (k_problem k) ->
    exists r v, variables k ne nx ny (s, n) =
      ((add_variables s v (map BNum (flatten (lower_bounds k ne nx ny))) (map BNum (flatten (upper_bounds k ne nx ny))),
        n + length v), Ok r) /\
      v = flatten r /\ flatten r = seq n (length (flatten r)) /\ shaped k ne nx ny r.
Proof.
  intros k ne nx ny s n [Ha [Ox [Oy [Ou [Op Ot]]]]].
  destruct Ha as [[Ax1 [Ax2 _]] [[Ay1 Ay2] [[Au1 [Au2 _]] [[Ap1 Ap2] [[At1 At2] _]]]]].
  unfold variables.
  assert (Hx : creator (create_states k ne nx) (ne * (nx * n_x k)) (grid ne nx (n_x k)) _ _ _)
    by (apply creator_grid; [exact Ax1 | exact Ax2 | exact Ox]).
  assert (Hy : creator (create_algebraics k ny) (k_elements k * (ny * n_y k)) (grid (k_elements k) ny (n_y k)) _ _ _)
    by (apply creator_grid; [exact Ay1 | exact Ay2 | exact Oy]).
  assert (Hu : creator (create_controls k) (k_elements k * (control_count k * n_u k))
                 (grid (k_elements k) (control_count k) (n_u k)) (fun l => concat (concat l))
                 (concat (concat (repeat (repeat (o_u_min (k_problem k)) (control_count k)) (k_elements k))))
                 (concat (concat (repeat (repeat (o_u_max (k_problem k)) (control_count k)) (k_elements k))))).
  { unfold create_controls. rewrite control_count_eq. apply creator_grid; [exact Au1 | exact Au2 | exact Ou]. }
  assert (Hp := creator_variable (n_p_opt k) (o_p_min (k_problem k)) (o_p_max (k_problem k)) Ap1 Ap2 Op).
  assert (Ht := creator_rows (k_elements k) (n_theta_opt k) (o_th_min (k_problem k)) (o_th_max (k_problem k)) At1 At2 Ot).
  unfold creator in *.
  destruct (Hx s n) as [x [Ex [Sx Fx]]]. unfold cbind at 1. rewrite Ex.
  match goal with |- context [cbind _ _ (?s', ?n')] => destruct (Hy s' n') as [y [Ey [Sy Fy]]] end.
  unfold cbind at 1. rewrite Ey.
  match goal with |- context [cbind _ _ (?s', ?n')] => destruct (Hu s' n') as [u [Eu [Su Fu]]] end.
  unfold cbind at 1. rewrite Eu. unfold create_others.
  match goal with |- context [cbind _ _ (?s', ?n')] => destruct (creator_free (n_eta k) s' n') as [eta [Ee [Se Fe]]] end.
  unfold cbind at 1. rewrite Ee.
  match goal with |- context [cbind _ _ (?s', ?n')] => destruct (Hp s' n') as [p [Ep [Sp Fp]]] end.
  unfold cbind at 1. rewrite Ep.
  match goal with |- context [cbind _ _ (?s', ?n')] => destruct (Ht s' n') as [th [Et [St Ft]]] end.
  unfold cbind at 1. rewrite Et. unfold cret. rewrite !add_variables_app.
  assert (Sh : shaped k ne nx ny (mkTraj x y u eta p th)) by (unfold shaped; simpl; tauto).
  exists (mkTraj x y u eta p th), (flatten (mkTraj x y u eta p th)). split; [|split; [reflexivity|split; [|exact Sh]]].
  - rewrite (flatten_length _ _ _ _ _ _ Sh). unfold flatten, lower_bounds, upper_bounds, repeated.
    cbn [r_x r_y r_u r_eta r_p r_theta]. rewrite !map_app. rewrite <- ?app_assoc. f_equal. apply f_equal2; [reflexivity | lia].
  - rewrite (flatten_length _ _ _ _ _ _ Sh). unfold flatten. cbn [r_x r_y r_u r_eta r_p r_theta].
    rewrite Fx, Fy, Fu, Fe, Fp, Ft. rewrite <- !seq_app. f_equal; lia.
Qed.

Lemma collocation_variables_eq : forall k,
    collocation_variables k = variables k (k_elements k) (k_degree k + 1) (k_degree k).
Proof. reflexivity. Qed.
Lemma shooting_variables_eq : forall k, shooting_variables k = variables k (k_elements k + 1) 1 1.
Proof. reflexivity. Qed.

(** Bounds and guesses have the shape of the variables. *)
Lemma rows_repeat : forall (A : Type) n (v : list A), rows n (length v) (repeat v n).
Proof.
  intros A n v. split; [apply repeat_length|]. apply Forall_forall. intros w H. apply repeat_spec in H. congruence.
Qed.
Lemma grid_repeat : forall (A : Type) n m (v : list A), grid n m (length v) (repeat (repeat v m) n).
Proof.
  intros A n m v. split; [apply repeat_length|]. apply Forall_forall. intros w H. apply repeat_spec in H. subst.
  apply rows_repeat.
Qed.
Lemma repeated_shape : forall (A : Type) k ne nx ny (x y u eta p th : list A),
    length x = n_x k -> length y = n_y k -> length u = n_u k -> length eta = n_eta k ->
    length p = n_p_opt k -> length th = n_theta_opt k ->
    shaped k ne nx ny (repeated k ne nx ny x y u eta p th).
Proof.
  intros A k ne nx ny x y u eta p th Hx Hy Hu He Hp Ht. unfold shaped, repeated. cbn [r_x r_y r_u r_eta r_p r_theta].
  rewrite <- Hx, <- Hy, <- Hu, <- Ht.
  split; [apply grid_repeat|]. split; [apply grid_repeat|]. split; [apply grid_repeat|].
  split; [exact He|]. split; [exact Hp | apply rows_repeat].
Qed.
Lemma bounds_shape : forall k ne nx ny, aligned (k_problem k) ->
    shaped k ne nx ny (lower_bounds k ne nx ny) /\ shaped k ne nx ny (upper_bounds k ne nx ny).
Proof.
  intros k ne nx ny Ha.
  destruct Ha as [[Ax1 [Ax2 _]] [[Ay1 Ay2] [[Au1 [Au2 _]] [[Ap1 Ap2] [[At1 At2] _]]]]].
  split; apply repeated_shape; try assumption; apply repeat_length.
Qed.
Lemma guess_shape : forall k ne nx ny, aligned (k_problem k) -> shaped k ne nx ny (default_guess k ne nx ny).
Proof.
  intros k ne nx ny Ha. destruct Ha as [[_ [_ Ax]] [_ [_ [_ [_ [Gy Gu]]]]]].
  apply repeated_shape; try apply repeat_length; [exact Ax| |].
  - unfold or_zero, guess_fits in *. destruct (o_y_guess (k_problem k)); [exact Gy | apply repeat_length].
  - unfold or_zero, guess_fits in *. destruct (o_u_guess (k_problem k)); [exact Gu | apply repeat_length].
Qed.

Lemma concat_repeat_concat : forall (A : Type) (v : list A) m n,
    concat (concat (repeat (repeat v m) n)) = concat (repeat v (n * m)).
Proof.
  intros A v m n. induction n as [|n IH]; [reflexivity|]. simpl. rewrite concat_app, IH, repeat_app, concat_app.
  reflexivity.
Qed.
Lemma concat_repeat_repeat : forall (A : Type) (a : A) m n, concat (repeat (repeat a m) n) = repeat a (n * m).
Proof. intros A a m n. induction n as [|n IH]; [reflexivity|]. simpl. rewrite IH, repeat_app. reflexivity. Qed.

Lemma initial_guess_default : forall k ne nx ny,
    initial_guess k (nx * ne) (ny * k_elements k) None None = Ok (flatten (default_guess k ne nx ny)).
Proof.
  intros k ne nx ny. unfold initial_guess, flatten, default_guess, repeated. cbn [r_x r_y r_u r_eta r_p r_theta].
  rewrite !concat_repeat_concat, concat_repeat_repeat. unfold repmat, zeros, or_zero.
  rewrite (Nat.mul_comm ne nx), (Nat.mul_comm (k_elements k) ny), (Nat.mul_comm (k_elements k) (n_theta_opt k)).
  rewrite <- control_count_eq. destruct (0 <? n_u_par k).
  - rewrite (Nat.mul_comm (k_elements k) (k_degree_control k)). reflexivity.
  - rewrite Nat.mul_0_r. reflexivity.
Qed.

(** Guesses with given parameter values. *)
Lemma pick_spec : forall (v : list sym) (q : list Q) idx names,
    NoDup v -> length q = length v -> map (nth_error v) idx = map Some names ->
    pick q idx = Ok (map (value_in v q) names).
Proof.
  intros v q idx. induction idx as [|i idx IH]; intros [|s names] Hn Hl E; try discriminate; [reflexivity|].
  injection E as E1 E2. simpl. rewrite (IH names Hn Hl E2).
  assert (Hi : nth_error q i = Some (value_in v q s)).
  { clear - Hn Hl E1. unfold value_in. revert q i Hl E1. induction v as [|a v IHv]; intros [|b q] i Hl E1;
      simpl in *; try discriminate; [destruct i; discriminate|].
    inversion Hn as [|? ? Ha Hv]; subst. destruct i as [|i].
    - injection E1 as ->. simpl. destruct (Nat.eq_dec s s); [reflexivity | contradiction].
    - simpl in *. destruct (Nat.eq_dec s a) as [->|]; [apply nth_error_In in E1; contradiction|].
      apply IHv; [exact Hv | congruence | exact E1]. }
  rewrite Hi. reflexivity.
Qed.

Lemma theta_guess : forall o d n (theta : list (list Q)) from,
    optimises_own o -> NoDup (m_theta (o_model o)) -> length theta = n ->
    (forall el v, nth_error theta el = Some v -> dget Nat.eqb (from + el) d = Some v /\ length v = length (m_theta (o_model o))) ->
    fold_right (fun el acc =>
                      match dget Nat.eqb el d, acc with
                      | Some v, Ok l => match pick v (get_theta_opt_indices o) with
                                        | Ok a => Ok (a ++ l) | Raise e => Raise e end
                      | None, Ok _ => Raise KeyError
                      | _, Raise e => Raise e
                      end) (Ok []) (seq from n) =
    Ok (concat (map (fun th => map (value_in (m_theta (o_model o)) th) (o_theta_opt o)) theta)).
Proof.
  intros o d n theta from [Hp Ho] Hn. revert theta from.
  induction n as [|n IH]; intros [|v theta] from Hl H; simpl in *; try discriminate; [reflexivity|].
  rewrite (IH theta (S from)); [|congruence|].
  - destruct (H 0 v eq_refl) as [E Hv]. rewrite Nat.add_0_r in E. rewrite E.
    rewrite (pick_spec (m_theta (o_model o)) v _ (o_theta_opt o) Hn Hv) by (apply opt_theta_indices; assumption).
    reflexivity.
  - intros el w Hw. destruct (H (S el) w Hw) as [E1 E2]. split; [|exact E2]. rewrite <- E1. f_equal. lia.
Qed.

Lemma initial_guess_with : forall k ne nx ny p d theta,
    optimises_own (k_problem k) -> NoDup (m_p (k_model k)) -> NoDup (m_theta (k_model k)) ->
    length p = n_p k -> theta_table k d theta -> Forall (fun v => length v = n_theta k) theta ->
    initial_guess k (nx * ne) (ny * k_elements k) (Some p) (Some d) = Ok (flatten (guess_with k ne nx ny p theta)).
Proof.
  intros k ne nx ny p d theta Ho Np Nt Hp [Hl Hd] Ht.
  assert (G := initial_guess_default k ne nx ny). unfold initial_guess in *.
  rewrite (pick_spec (m_p (k_model k)) p _ (o_p_opt (k_problem k)) Np Hp)
    by (apply opt_indices; [exact (proj1 Ho) | exact Np]).
  rewrite (theta_guess (k_problem k) d (k_elements k) theta 0 Ho Nt Hl).
  - unfold guess_with, flatten in *. cbn [r_x r_y r_u r_eta r_p r_theta] in *. injection G as G.
    f_equal. unfold default_guess, repeated in *. cbn [r_x r_y r_u r_eta r_p r_theta] in *.
    clear - G.
    rewrite !app_assoc. f_equal. f_equal. rewrite !app_assoc in G. rewrite <- (app_assoc _ (zeros (n_p_opt k))) in G.
    rewrite <- (app_assoc _ (repeat 0%Q (n_p_opt k))) in G.
    apply app_inv_tail_iff with (l := zeros (n_p_opt k) ++ zeros (n_theta_opt k * k_elements k)).
    rewrite G. f_equal. f_equal. rewrite concat_repeat_repeat, Nat.mul_comm. reflexivity.
  - intros el v Hv. split; [apply Hd, Hv|]. rewrite Forall_forall in Ht. apply Ht, (nth_error_In _ _ Hv).
Qed.

(** ** The time grid *)
Local Open Scope Q_scope.

Lemma q_of_nat_S : forall n, q_of_nat (S n) == q_of_nat n + 1.
Proof. intros n. unfold q_of_nat. rewrite Nat2Z.inj_succ, <- Z.add_1_r, inject_Z_plus. reflexivity. Qed.
Lemma q_of_nat_pos : forall n, (0 < n)%nat -> 0 < q_of_nat n.
Proof. intros n H. unfold q_of_nat. change 0 with (inject_Z 0). rewrite <- Zlt_Qlt. lia. Qed.

Lemma breakpoints_ok : forall k l, breakpoints k = Ok l ->
    k_elements k <> 0%nat /\
    l = map (fun i => (o_t_f (k_problem k) - o_t_0 (k_problem k)) / q_of_nat (k_elements k) * q_of_nat i)
            (seq 0 (k_elements k + 1)).
Proof.
  intros k l. unfold breakpoints, delta_t. destruct (Nat.eqb_spec (k_elements k) 0) as [E|E]; [discriminate|].
  intros H. injection H as <-. split; [exact E | reflexivity].
Qed.

Lemma nth_error_map_seq : forall (A : Type) (f : nat -> A) n i, (i < n)%nat ->
    nth_error (map f (seq 0 n)) i = Some (f i).
Proof.
  intros A f n i H. rewrite nth_error_map, (nth_error_nth' _ 0%nat) by (rewrite seq_length; exact H).
  rewrite seq_nth by exact H. reflexivity.
Qed.

Lemma grid_points : forall k l i, breakpoints k = Ok l -> (i <= k_elements k)%nat ->
    length l = (k_elements k + 1)%nat /\
    exists t, nth_error l i = Some t /\
      t == q_of_nat i * ((o_t_f (k_problem k) - o_t_0 (k_problem k)) / q_of_nat (k_elements k)).
Proof.
  intros k l i H Hi. destruct (breakpoints_ok k l H) as [Hk ->]. split; [rewrite map_length, seq_length; reflexivity|].
  eexists. split; [apply nth_error_map_seq; lia|]. cbv beta. ring.
Qed.

(** ** Parameters *)
Local Close Scope Q_scope.

Lemma lookup_all_ok : forall (V : Type) (d : dict nat V) n l, lookup_all d n = Ok l ->
    length l = n /\ forall el v, nth_error l el = Some v -> dget Nat.eqb el d = Some v.
Proof.
  intros V d n. unfold lookup_all.
  assert (H : forall m from l, fold_right (fun el acc => match dget Nat.eqb el d, acc with
                            | Some v, Ok l => Ok (v :: l)
                            | None, Ok _ => Raise KeyError
                            | _, Raise e => Raise e
                            end) (Ok []) (seq from m) = Ok l ->
            length l = m /\ forall el v, nth_error l el = Some v -> dget Nat.eqb (from + el) d = Some v).
  { induction m as [|m IH]; intros from l E; simpl in E.
    - injection E as <-. split; [reflexivity|]. intros [|el] v H; discriminate.
    - destruct (fold_right _ _ (seq (S from) m)) as [l'|e] eqn:El.
      + destruct (dget Nat.eqb from d) as [v0|] eqn:Ev; [|discriminate]. injection E as <-.
        destruct (IH (S from) l' El) as [H1 H2]. split; [simpl; congruence|]. intros [|el] v Hv; simpl in Hv.
        * injection Hv as <-. rewrite Nat.add_0_r. exact Ev.
        * rewrite <- Nat.add_succ_comm. apply H2, Hv.
      + destruct (dget Nat.eqb from d); discriminate. }
  intros l E. destruct (H n 0 l E) as [H1 H2]. split; assumption.
Qed.

(** What is returned, case by case. *)
Lemma call_args_ok : forall k x_0 p theta last_u a,
    get_solver_call_args k x_0 p theta last_u = Ok a ->
    exists ths, theta_table k (a_theta a) ths /\ length (a_x0 a) = n_x k /\
      a_x0 a = match x_0 with Some v => v | None => o_x_0 (k_problem k) end /\
      (forall v, p = Some v -> a_p a = v) /\ (forall d, theta = Some d -> a_theta a = d) /\
      a_par a = a_p a ++ concat ths ++ (if k_x0_par k then a_x0 a else []) ++
                match last_u, k_last_u_par k with None, true => match o_last_u (k_problem k) with Some lu => lu | None => [] end
                                                | _, _ => [] end /\
      a_last_u a = match last_u, k_last_u_par k with None, true => o_last_u (k_problem k) | l, _ => l end /\
      (last_u = None -> k_last_u_par k = true -> o_last_u (k_problem k) <> None).
Proof.
  intros k x_0 p theta last_u a. unfold get_solver_call_args.
  set (x0 := match x_0 with Some v => v | None => _ end).
  destruct (Nat.eqb_spec (length x0) (n_x k)) as [Hx|]; [|discriminate]. cbn [negb].
  destruct (match p with Some v => Ok v | None => _ end) as [pv|e] eqn:Ep; [|discriminate].
  destruct (match theta with Some d => Ok d | None => _ end) as [td|e] eqn:Et; [|discriminate].
  destruct (lookup_all td (k_elements k)) as [ths|e] eqn:El; [|discriminate].
  destruct (lookup_all_ok _ _ _ _ El) as [Hl1 Hl2].
  assert (Hp : forall v, p = Some v -> pv = v) by (intros v ->; congruence).
  assert (Ht : forall d, theta = Some d -> td = d) by (intros v ->; congruence).
  intros H. exists ths. destruct last_u as [lu|]; [|destruct (k_last_u_par k)].
  - injection H as <-. cbn [a_par a_p a_theta a_x0 a_last_u]. rewrite app_nil_r.
    repeat (split; [try assumption; try reflexivity; try (split; assumption)|]); discriminate.
  - destruct (o_last_u (k_problem k)) as [lu|] eqn:E; [|discriminate]. injection H as <-.
    cbn [a_par a_p a_theta a_x0 a_last_u].
    repeat (split; [try assumption; try reflexivity; try (split; assumption)|]). discriminate.
  - injection H as <-. cbn [a_par a_p a_theta a_x0 a_last_u]. rewrite app_nil_r.
    repeat (split; [try assumption; try reflexivity; try (split; assumption)|]). discriminate.
Qed.

Lemma concat_theta_syms : forall th0 nt n from,
    concat (map (fun el => seq (th0 + nt * el) nt) (seq from n)) = seq (th0 + nt * from) (nt * n).
Proof.
  intros th0 nt n. induction n as [|n IH]; intros from; simpl; [rewrite Nat.mul_0_r; reflexivity|].
  rewrite IH. replace (nt * S n) with (nt + nt * n) by lia. rewrite seq_app. f_equal. f_equal. lia.
Qed.
Lemma all_mx_seq : forall k c,
    all_mx (parameter_symbols k c) =
    seq c (n_p k + n_theta k * k_elements k + n_x k + (if k_last_u_par k then n_u k else 0)).
Proof.
  intros k c. unfold all_mx, parameter_symbols. cbn [ps_p ps_theta ps_x0 ps_last_u].
  rewrite concat_theta_syms. rewrite Nat.mul_0_r, Nat.add_0_r.
  destruct (k_last_u_par k); rewrite ?app_nil_r, ?Nat.add_0_r; rewrite <- ?app_assoc, <- ?seq_app; f_equal; lia.
Qed.
Lemma theta_syms_rows : forall k c, rows (k_elements k) (n_theta k) (ps_theta (parameter_symbols k c)).
Proof.
  intros k c. unfold parameter_symbols. cbn [ps_theta]. split; [rewrite map_length, seq_length; reflexivity|].
  apply Forall_map, Forall_forall. intros. apply seq_length.
Qed.

Lemma map_concat_rows : forall (A B : Type) (f : A -> B) l, map f (concat l) = concat (map (map f) l).
Proof. intros A B f l. induction l as [|a l IH]; [reflexivity|]. simpl. rewrite map_app, IH. reflexivity. Qed.
Lemma rows_map : forall (A B : Type) (f : A -> B) n d l, rows n d l -> rows n d (map (map f) l).
Proof.
  intros A B f n d l [H1 H2]. split; [rewrite map_length; exact H1|]. apply Forall_map.
  eapply Forall_impl; [|exact H2]. intros v Hv. rewrite map_length. exact Hv.
Qed.

Lemma parameters_read : forall k c p theta x0 lu env,
    length p = n_p k -> rows (k_elements k) (n_theta k) theta -> length x0 = n_x k ->
    length lu = (if k_last_u_par k then n_u k else 0) ->
    map env (all_mx (parameter_symbols k c)) = p ++ concat theta ++ x0 ++ lu ->
    reads env (parameter_symbols k c) (mkParValues p theta x0 lu).
Proof.
  intros k c p theta x0 lu env Hp Ht Hx Hu E. unfold all_mx in E.
  rewrite !map_app, map_concat_rows in E.
  apply app_inj_len in E; [|rewrite map_length, Hp; apply seq_length]. destruct E as [E1 E].
  apply app_inj_len in E.
  2: { rewrite (rows_concat_length _ _ _ _ Ht).
       rewrite (rows_concat_length _ (k_elements k) (n_theta k)); [reflexivity|].
       apply rows_map, theta_syms_rows. }
  destruct E as [E2 E]. apply app_inj_len in E; [|rewrite map_length, Hx; apply seq_length]. destruct E as [E3 E4].
  unfold reads. cbn [pv_p pv_theta pv_x0 pv_last_u]. split; [exact E1|]. split; [|split; assumption].
  apply (rows_concat_inj _ (k_elements k) (n_theta k)); [apply rows_map, theta_syms_rows | exact Ht | exact E2].
Qed.

Lemma call_args_read : forall k c x_0 p theta last_u a,
    get_solver_call_args k x_0 p theta last_u = Ok a ->
    k_x0_par k = true -> (k_last_u_par k = true -> last_u = None) ->
    length (a_p a) = n_p k ->
    (forall el v, el < k_elements k -> dget Nat.eqb el (a_theta a) = Some v -> length v = n_theta k) ->
    (forall lu, o_last_u (k_problem k) = Some lu -> length lu = n_u k) ->
    exists ths lu, theta_table k (a_theta a) ths /\
      (k_last_u_par k = true -> a_last_u a = Some lu /\ o_last_u (k_problem k) = Some lu) /\
      (k_last_u_par k = false -> lu = []) /\
      length (a_par a) = length (all_mx (parameter_symbols k c)) /\
      forall env, map env (all_mx (parameter_symbols k c)) = a_par a ->
        reads env (parameter_symbols k c) (mkParValues (a_p a) ths (a_x0 a) lu).
Proof.
  intros k c x_0 p theta last_u a H Hx Hu Hp Ht Hlu.
  destruct (call_args_ok _ _ _ _ _ _ H) as [ths [Htab [Hx0 [_ [_ [_ [Epar [Elu Hne]]]]]]]].
  rewrite Hx in Epar.
  set (lu := match last_u, k_last_u_par k with None, true => match o_last_u (k_problem k) with Some lu => lu | None => [] end
                                                | _, _ => [] end) in Epar.
  assert (Llu : length lu = if k_last_u_par k then n_u k else 0).
  { unfold lu. destruct (k_last_u_par k) eqn:Ek.
    - rewrite (Hu eq_refl) in *. destruct (o_last_u (k_problem k)) as [l|] eqn:E; [apply Hlu; reflexivity|].
      exfalso. apply Hne; reflexivity.
    - destruct last_u; reflexivity. }
  assert (Rt : rows (k_elements k) (n_theta k) ths).
  { destruct Htab as [Hl Hd]. split; [exact Hl|]. apply Forall_forall. intros v Hv.
    apply In_nth_error in Hv. destruct Hv as [el Hel]. apply (Ht el).
    - rewrite <- Hl. apply nth_error_Some. congruence.
    - apply Hd, Hel. }
  exists ths, lu. split; [exact Htab|]. split; [|split; [|split]].
  - intros Ek. unfold lu. rewrite Elu, Ek, (Hu Ek). destruct (o_last_u (k_problem k)) as [l|] eqn:E.
    + split; reflexivity.
    + exfalso. apply Hne; [apply Hu; exact Ek | exact Ek | reflexivity].
  - intros Ek. unfold lu. rewrite Ek. destruct last_u; reflexivity.
  - rewrite Epar, all_mx_seq, seq_length, !app_length, Hp, Hx0, Llu, (rows_concat_length _ _ _ _ Rt). lia.
  - intros env E. rewrite Epar in E. apply parameters_read; assumption.
Qed.

Lemma call_args_short : forall k c x_0 p theta last_u a,
    get_solver_call_args k x_0 p theta last_u = Ok a ->
    length (a_p a) = n_p k ->
    (forall el v, el < k_elements k -> dget Nat.eqb el (a_theta a) = Some v -> length v = n_theta k) ->
    (forall lu, o_last_u (k_problem k) = Some lu -> length lu = n_u k) ->
    length (all_mx (parameter_symbols k c)) =
    length (a_par a) + (if k_x0_par k then 0 else n_x k) +
    (match last_u, k_last_u_par k with Some _, true => n_u k | _, _ => 0 end).
Proof.
  intros k c x_0 p theta last_u a H Hp Ht Hlu.
  destruct (call_args_ok _ _ _ _ _ _ H) as [ths [[Hl Hd] [Hx0 [_ [_ [_ [Epar [Elu Hne]]]]]]]].
  assert (Rt : rows (k_elements k) (n_theta k) ths).
  { split; [exact Hl|]. apply Forall_forall. intros v Hv.
    apply In_nth_error in Hv. destruct Hv as [el Hel]. apply (Ht el).
    - rewrite <- Hl. apply nth_error_Some. congruence.
    - apply Hd, Hel. }
  rewrite Epar, all_mx_seq, seq_length, !app_length, Hp, (rows_concat_length _ _ _ _ Rt).
  assert (Lx : length (if k_x0_par k then a_x0 a else []) + (if k_x0_par k then 0 else n_x k) = n_x k).
  { destruct (k_x0_par k); simpl; [rewrite Hx0|]; lia. }
  destruct last_u as [l|]; destruct (k_last_u_par k) eqn:Ek; simpl length; try lia.
  destruct (o_last_u (k_problem k)) as [lu|] eqn:Eu; [rewrite (Hlu lu eq_refl); lia|].
  exfalso. apply Hne; reflexivity.
Qed.

Lemma constant_theta_get : forall q dim n el, el < n -> dget Nat.eqb el (constant_theta q dim n) = Some (repeat q dim).
Proof.
  intros q dim n el H. unfold constant_theta.
  assert (G : forall m from, from <= el < from + m ->
            dget Nat.eqb el (map (fun e => (e, repeat q dim)) (seq from m)) = Some (repeat q dim)).
  { induction m as [|m IH]; intros from Hf; [lia|]. simpl. destruct (Nat.eqb_spec el from); [reflexivity|].
    apply IH. lia. }
  apply G. lia.
Qed.

Lemma call_args_given : forall k x_0 p theta last_u a,
    get_solver_call_args k x_0 p theta last_u = Ok a ->
    length (a_x0 a) = n_x k /\
    a_x0 a = match x_0 with Some v => v | None => o_x_0 (k_problem k) end /\
    (forall v, p = Some v -> a_p a = v) /\ (forall d, theta = Some d -> a_theta a = d) /\
    (p = None -> a_p a = repeat 0%Q (n_p k)) /\
    (theta = None -> forall el, el < k_elements k ->
       dget Nat.eqb el (a_theta a) = Some (repeat 0%Q (n_theta k))).
Proof.
  intros k x_0 p theta last_u a H. destruct (call_args_ok _ _ _ _ _ _ H) as [ths [_ [H1 [H2 [H3 [H4 _]]]]]].
  do 4 (split; [assumption|]). clear H1 H2 H3 H4. unfold get_solver_call_args in H.
  destruct (negb _); [discriminate|].
  destruct (match p with Some v => Ok v | None => _ end) as [pv|e] eqn:Ep; [|discriminate].
  destruct (match theta with Some d => Ok d | None => _ end) as [td|e] eqn:Et; [|discriminate].
  destruct (lookup_all td (k_elements k)) as [l|e]; [|discriminate].
  assert (E : a_p a = pv /\ a_theta a = td).
  { destruct last_u as [lu|]; [|destruct (k_last_u_par k)].
    - injection H as <-. split; reflexivity.
    - destruct (o_last_u (k_problem k)); [|discriminate]. injection H as <-. split; reflexivity.
    - injection H as <-. split; reflexivity. }
  destruct E as [-> ->]. split.
  - intros ->. destruct (Nat.eqb_spec (n_p_opt k) (n_p k)) as [E|E].
    + injection Ep as <-. rewrite E. reflexivity.
    + destruct (Nat.ltb_spec 0 (n_p k)) as [L|L]; [discriminate|]. injection Ep as <-.
      replace (n_p k) with 0 by lia. reflexivity.
  - intros -> el Hel. destruct (Nat.eqb_spec (n_theta_opt k) (n_theta k)) as [E|E].
    + injection Et as <-. rewrite E. apply constant_theta_get, Hel.
    + destruct (Nat.ltb_spec 0 (n_theta k)) as [L|L]; [discriminate|]. injection Et as <-.
      replace (n_theta k) with 0 by lia. apply constant_theta_get, Hel.
Qed.

Lemma call_args_refused : forall k x_0 p theta last_u,
    (length (match x_0 with Some v => v | None => o_x_0 (k_problem k) end) <> n_x k ->
     get_solver_call_args k x_0 p theta last_u = Raise AnyException) /\
    (length (match x_0 with Some v => v | None => o_x_0 (k_problem k) end) = n_x k ->
     p = None -> n_p k <> 0 -> n_p_opt k <> n_p k ->
     get_solver_call_args k x_0 p theta last_u = Raise ValueError) /\
    (length (match x_0 with Some v => v | None => o_x_0 (k_problem k) end) = n_x k ->
     p <> None -> theta = None -> n_theta k <> 0 -> n_theta_opt k <> n_theta k ->
     get_solver_call_args k x_0 p theta last_u = Raise AnyException).
Proof.
  intros k x_0 p theta last_u. unfold get_solver_call_args.
  set (x0 := match x_0 with Some v => v | None => _ end).
  destruct (Nat.eqb_spec (length x0) (n_x k)) as [Hx|Hx]; cbn [negb].
  - split; [contradiction|]. split.
    + intros _ -> Hp Ho. destruct (Nat.eqb_spec (n_p_opt k) (n_p k)); [contradiction|].
      destruct (Nat.ltb_spec 0 (n_p k)); [reflexivity | lia].
    + intros _ Hp -> Ht Ho. destruct p as [v|]; [|contradiction].
      destruct (Nat.eqb_spec (n_theta_opt k) (n_theta k)); [contradiction|].
      destruct (Nat.ltb_spec 0 (n_theta k)); [reflexivity | lia].
  - split; [reflexivity|]. split; contradiction.
Qed.

(** ** Order of the grid *)
Local Open Scope Q_scope.

Lemma step_positive : forall k, k_elements k <> 0%nat -> (o_t_0 (k_problem k) < o_t_f (k_problem k)) ->
    0 < (o_t_f (k_problem k) - o_t_0 (k_problem k)) / q_of_nat (k_elements k).
Proof.
  intros k Hk H. assert (P : 0 < q_of_nat (k_elements k)) by (apply q_of_nat_pos; lia).
  apply Qlt_shift_div_l; [exact P|]. lra.
Qed.
Lemma step_nonneg : forall k, k_elements k <> 0%nat -> (o_t_0 (k_problem k) <= o_t_f (k_problem k)) ->
    0 <= (o_t_f (k_problem k) - o_t_0 (k_problem k)) / q_of_nat (k_elements k).
Proof.
  intros k Hk H. assert (P : 0 < q_of_nat (k_elements k)) by (apply q_of_nat_pos; lia).
  apply Qle_shift_div_l; [exact P|]. lra.
Qed.

Lemma grid_step : forall k l i t t', breakpoints k = Ok l ->
    nth_error l i = Some t -> nth_error l (S i) = Some t' ->
    t' == t + (o_t_f (k_problem k) - o_t_0 (k_problem k)) / q_of_nat (k_elements k).
Proof.
  intros k l i t t' H Ht Ht'.
  assert (Hi : (S i <= k_elements k)%nat).
  { destruct (grid_points k l 0 H) as [L _]; [lia|]. assert (S i < length l)%nat by (apply nth_error_Some; congruence).
    lia. }
  destruct (grid_points k l i H) as [_ [a [Ea Qa]]]; [lia|].
  destruct (grid_points k l (S i) H Hi) as [_ [b [Eb Qb]]].
  rewrite Ea in Ht. injection Ht as <-. rewrite Eb in Ht'. injection Ht' as <-.
  rewrite Qa, Qb, q_of_nat_S. ring.
Qed.

Lemma grid_increasing : forall k l i t t',
    breakpoints k = Ok l -> (o_t_0 (k_problem k) < o_t_f (k_problem k)) ->
    nth_error l i = Some t -> nth_error l (S i) = Some t' -> t < t'.
Proof.
  intros k l i t t' H Hlt Ht Ht'. rewrite (grid_step k l i t t' H Ht Ht').
  assert (G := step_positive k (proj1 (breakpoints_ok k l H)) Hlt). lra.
Qed.

Lemma points_inside : forall k l dt taus e ts t a b,
    breakpoints k = Ok l -> delta_t k = Ok dt -> (o_t_0 (k_problem k) <= o_t_f (k_problem k)) ->
    Forall (fun tau => 0 <= tau <= 1) taus ->
    length (interpolation_times dt l taus) = k_elements k /\
    (nth_error (interpolation_times dt l taus) e = Some ts -> In t ts ->
     nth_error l e = Some a -> nth_error l (S e) = Some b -> a <= t <= b).
Proof.
  intros k l dt taus e ts t a b H Hdt Hle Htau. destruct (breakpoints_ok k l H) as [Hk El].
  assert (L : length l = (k_elements k + 1)%nat) by (apply (grid_points k l 0 H); lia).
  split.
  - unfold interpolation_times. rewrite map_length. destruct l as [|q l] using rev_ind; [simpl in L; lia|].
    rewrite removelast_last. rewrite app_length in L. simpl in L. lia.
  - intros Ets Hin Ea Eb.
    assert (Ea' : nth_error (removelast l) e = Some a).
    { destruct l as [|q l'] using rev_ind; [destruct e; discriminate|]. rewrite removelast_last.
      rewrite nth_error_app1 in Ea; [exact Ea|].
      assert (S e < length (l' ++ [q]))%nat by (apply nth_error_Some; congruence). rewrite app_length in H0. simpl in H0. lia. }
    unfold interpolation_times in Ets. rewrite nth_error_map, Ea' in Ets. injection Ets as <-.
    apply in_map_iff in Hin. destruct Hin as [tau [<- Hin]].
    rewrite Forall_forall in Htau. specialize (Htau tau Hin).
    assert (G := grid_step k l e a b H Ea Eb). assert (P := step_nonneg k Hk Hle).
    unfold delta_t in Hdt. destruct (Nat.eqb_spec (k_elements k) 0) as [|_]; [contradiction|]. injection Hdt as <-.
    set (d := _ / _) in *. assert (0 <= d * tau) by (apply Qmult_le_0_compat; lra).
    assert (0 <= d * (1 - tau)) by (apply Qmult_le_0_compat; lra). lra.
Qed.

Local Close Scope Q_scope.
Lemma w_C37_grid :
  forall k l,
    breakpoints k = Ok l ->
    let n := k_elements k in
    let dt := ((o_t_f (k_problem k) - o_t_0 (k_problem k)) / q_of_nat n)%Q in
    n <> 0 /\ length l = n + 1 /\
    forall i, i <= n -> exists t, nth_error l i = Some t /\ (t == q_of_nat i * dt)%Q.
Proof.
  intros k l H n dt. split; [apply (breakpoints_ok k l H)|].
  split; [apply (grid_points k l 0 H); lia|]. intros i Hi. apply (grid_points k l i H Hi).
Qed.

Lemma w_C37_defined :
  forall k,
    (k_elements k <> 0 -> exists l, breakpoints k = Ok l) /\
    (k_elements k = 0 -> breakpoints k = Raise ZeroDivisionErr).
Proof.
  intros k. unfold breakpoints, delta_t. destruct (Nat.eqb_spec (k_elements k) 0) as [E|E].
  - split; [contradiction | reflexivity].
  - split; [intros _; eexists; reflexivity | contradiction].
Qed.

Lemma w_C37_ends :
  forall k l,
    breakpoints k = Ok l ->
    (exists t, nth_error l 0 = Some t /\ t == 0)%Q /\
    (exists t, nth_error l (k_elements k) = Some t /\ t == o_t_f (k_problem k) - o_t_0 (k_problem k))%Q.
Proof.
  intros k l H. destruct (breakpoints_ok k l H) as [Hk _]. split.
  - destruct (grid_points k l 0 H) as [_ [t [E Et]]]; [lia|]. exists t. split; [exact E|]. rewrite Et.
    unfold q_of_nat. simpl. ring.
  - destruct (grid_points k l (k_elements k) H) as [_ [t [E Et]]]; [lia|]. exists t. split; [exact E|]. rewrite Et.
    field. intros E0. assert (G := q_of_nat_pos (k_elements k)). assert ((0 < q_of_nat (k_elements k))%Q) by (apply G; lia).
    rewrite E0 in H0. apply (Qlt_irrefl _ H0).
Qed.

Lemma w_C37_horizon_refuted :
  forall k l,
    breakpoints k = Ok l -> ~ (o_t_0 (k_problem k) == 0)%Q ->
    (forall t, nth_error l 0 = Some t -> ~ (t == o_t_0 (k_problem k))%Q) /\
    (forall t, nth_error l (k_elements k) = Some t -> ~ (t == o_t_f (k_problem k))%Q).
Proof.
  intros k l H Hne. destruct (w_C37_ends k l H) as [[t0 [E0 H0]] [tf [Ef Hf]]]. split.
  - intros t E Et. rewrite E0 in E. injection E as <-. apply Hne. rewrite <- Et. exact H0.
  - intros t E Et. rewrite Ef in E. injection E as <-. apply Hne. rewrite Et in Hf. lra.
Qed.

Lemma w_C37_follows_changes_refuted :
  forall k k' s l,
    time_breakpoints (k, None) = (s, Ok l) ->
    breakpoints k = Ok l /\ time_breakpoints (k', snd s) = ((k', Some l), Ok l).
Proof.
  intros k k' s l. unfold time_breakpoints. cbn [fst snd]. destruct (breakpoints k) as [l'|e]; [|discriminate].
  intros H. injection H as <- <-. split; reflexivity.
Qed.

Lemma w_C38_variables :
  forall k s n,
    well_bounded (k_problem k) ->
    let ne := k_elements k in let nx := k_degree k + 1 in let ny := k_degree k in
    exists r,
      collocation_variables k (s, n) =
        ((mkNlp (NlpModel.nx s ++ flatten r)
                (nx_lb s ++ map BNum (flatten (lower_bounds k ne nx ny)))
                (nx_ub s ++ map BNum (flatten (upper_bounds k ne nx ny)))
                (ng s) (ng_lb s) (ng_ub s) (np s) (nf s) (nsolver s), n + collocation_size k), Ok r) /\
      collocation_shape k r /\ flatten r = seq n (collocation_size k).
Proof.
  intros k s n H ne nx ny. rewrite collocation_variables_eq.
  destruct (variables_spec k ne nx ny s n H) as [r [v [E [-> [Hf Hs]]]]].
  assert (L : length (flatten r) = collocation_size k)
    by (rewrite (flatten_length _ _ _ _ _ _ Hs); unfold collocation_size, ne, nx, ny; lia).
  exists r. rewrite L in *. split; [exact E|]. split; [exact Hs | exact Hf].
Qed.

Lemma w_C38_same_shape :
  forall k,
    aligned (k_problem k) ->
    let ne := k_elements k in let nx := k_degree k + 1 in let ny := k_degree k in
    collocation_shape k (lower_bounds k ne nx ny) /\ collocation_shape k (upper_bounds k ne nx ny) /\
    collocation_shape k (default_guess k ne nx ny) /\
    collocation_guess k None None = Ok (flatten (default_guess k ne nx ny)).
Proof.
  intros k H ne nx ny. split; [apply bounds_shape, H|]. split; [apply bounds_shape, H|].
  split; [apply guess_shape, H | apply initial_guess_default].
Qed.

Lemma w_C38_length :
  forall (A : Type) k (r : traj A), collocation_shape k r -> length (flatten r) = collocation_size k.
Proof. intros A k r H. rewrite (flatten_length _ _ _ _ _ _ H). unfold collocation_size. lia. Qed.

Lemma w_C38_places :
  forall (A : Type) k (r : traj A), collocation_shape k r -> collocation_places k (flatten r) r.
Proof. intros A k r H. apply flatten_places, H. Qed.

Lemma w_C38_guess_with_parameters :
  forall k p d theta,
    optimises_own (k_problem k) -> NoDup (m_p (k_model k)) -> NoDup (m_theta (k_model k)) ->
    length p = n_p k -> theta_table k d theta -> Forall (fun v => length v = n_theta k) theta ->
    collocation_guess k (Some p) (Some d) =
    Ok (flatten (guess_with k (k_elements k) (k_degree k + 1) (k_degree k) p theta)).
Proof. intros. apply initial_guess_with; assumption. Qed.

Lemma w_C38_length_checked :
  forall (A : Type) k (v : list A),
    k_elements k <> 0 ->
    (length v = collocation_size k -> exists r, collocation_unpack k v = Ok r) /\
    (length v < collocation_size k -> collocation_unpack k v = Raise CasadiError) /\
    (length v > collocation_size k -> collocation_unpack k v = Raise AssertionError).
Proof.
  intros A k v H. destruct (collocation_unpack_spec A k v H) as [H1 [H2 H3]]. split; [|split; [exact H2 | exact H3]].
  intros L. destruct (H1 L) as [r [E _]]. eexists. exact E.
Qed.

Lemma w_C38_injective :
  forall (A : Type) k (r r' : traj A),
    collocation_shape k r -> collocation_shape k r' -> flatten r = flatten r' -> r = r'.
Proof. intros A k r r'. apply flatten_inj. Qed.

Lemma w_C39_variables :
  forall k s n,
    well_bounded (k_problem k) ->
    let ne := k_elements k + 1 in
    exists r,
      shooting_variables k (s, n) =
        ((mkNlp (NlpModel.nx s ++ flatten r)
                (nx_lb s ++ map BNum (flatten (lower_bounds k ne 1 1)))
                (nx_ub s ++ map BNum (flatten (upper_bounds k ne 1 1)))
                (ng s) (ng_lb s) (ng_ub s) (np s) (nf s) (nsolver s), n + shooting_size k), Ok r) /\
      shooting_shape k r /\ flatten r = seq n (shooting_size k).
Proof.
  intros k s n H ne. rewrite shooting_variables_eq.
  destruct (variables_spec k ne 1 1 s n H) as [r [v [E [-> [Hf Hs]]]]].
  assert (L : length (flatten r) = shooting_size k)
    by (rewrite (flatten_length _ _ _ _ _ _ Hs); unfold shooting_size, ne; lia).
  exists r. rewrite L in *. split; [exact E|]. split; [exact Hs | exact Hf].
Qed.

Lemma w_C39_same_shape :
  forall k,
    aligned (k_problem k) ->
    let ne := k_elements k + 1 in
    shooting_shape k (lower_bounds k ne 1 1) /\ shooting_shape k (upper_bounds k ne 1 1) /\
    shooting_shape k (default_guess k ne 1 1) /\
    shooting_guess k None None = Ok (flatten (default_guess k ne 1 1)).
Proof.
  intros k H ne. split; [apply bounds_shape, H|]. split; [apply bounds_shape, H|].
  split; [apply guess_shape, H|]. unfold shooting_guess. rewrite <- (initial_guess_default k ne 1 1).
  rewrite !Nat.mul_1_l. reflexivity.
Qed.

Lemma w_C39_length :
  forall (A : Type) k (r : traj A), shooting_shape k r -> length (flatten r) = shooting_size k.
Proof. intros A k r H. rewrite (flatten_length _ _ _ _ _ _ H). unfold shooting_size. lia. Qed.

Lemma w_C39_places :
  forall (A : Type) k (r : traj A), shooting_shape k r -> shooting_places k (flatten r) r.
Proof. intros A k r H. apply flatten_places, H. Qed.

Lemma w_C39_length_checked :
  forall (A : Type) k (v : list A),
    (length v = shooting_size k -> exists r, shooting_unpack k v = Ok r) /\
    (length v < shooting_size k -> shooting_unpack k v = Raise CasadiError) /\
    (length v > shooting_size k -> shooting_unpack k v = Raise AssertionError).
Proof.
  intros A k v. destruct (shooting_unpack_spec A k v) as [H1 [H2 H3]]. split; [|split; [exact H2 | exact H3]].
  intros L. destruct (H1 L) as [r [E _]]. eexists. exact E.
Qed.

Lemma w_C40_symbols :
  forall k c,
    NoDup (all_mx (parameter_symbols k c)) /\
    length (all_mx (parameter_symbols k c)) =
      n_p k + n_theta k * k_elements k + n_x k + (if k_last_u_par k then n_u k else 0).
Proof. intros k c. rewrite all_mx_seq. split; [apply seq_NoDup | apply seq_length]. Qed.

Lemma w_C40_explicit_last_control_refuted :
  forall k c x_0 p theta lu a,
    get_solver_call_args k x_0 p theta (Some lu) = Ok a ->
    k_last_u_par k = true -> n_u k <> 0 -> length (a_p a) = n_p k ->
    (forall el v, el < k_elements k -> dget Nat.eqb el (a_theta a) = Some v -> length v = n_theta k) ->
    (forall lu, o_last_u (k_problem k) = Some lu -> length lu = n_u k) ->
    length (a_par a) < length (all_mx (parameter_symbols k c)).
Proof.
  intros k c x_0 p theta lu a H Hu Hn Hp Ht Hlu.
  rewrite (call_args_short k c _ _ _ _ _ H Hp Ht Hlu), Hu. lia.
Qed.

Lemma w_C40_no_initial_condition_refuted :
  forall k c x_0 p theta last_u a,
    get_solver_call_args k x_0 p theta last_u = Ok a ->
    k_x0_par k = false -> n_x k <> 0 -> length (a_p a) = n_p k ->
    (forall el v, el < k_elements k -> dget Nat.eqb el (a_theta a) = Some v -> length v = n_theta k) ->
    (forall lu, o_last_u (k_problem k) = Some lu -> length lu = n_u k) ->
    length (a_par a) < length (all_mx (parameter_symbols k c)).
Proof.
  intros k c x_0 p theta lu a H Hu Hn Hp Ht Hlu.
  rewrite (call_args_short k c _ _ _ _ _ H Hp Ht Hlu), Hu. lia.
Qed.

Lemma w_C40_sizes_checked_refuted :
  exists k c p theta a,
    cart_method 2 1 = Ok k /\ get_solver_call_args k None (Some p) (Some theta) None = Ok a /\
    length p <> n_p k /\ length (a_par a) = length (all_mx (parameter_symbols k c)) /\
    forall env, map env (all_mx (parameter_symbols k c)) = a_par a ->
      map env (concat (ps_theta (parameter_symbols k c))) = last p 0%Q :: concat (map snd theta).
Proof.
  eexists. exists 100, [1%Q; 2%Q; 3%Q], [(0, [4%Q])]. eexists. split; [vm_compute; reflexivity|].
  split; [vm_compute; reflexivity|]. split; [vm_compute; discriminate|]. split; [reflexivity|].
  intros env E. vm_compute in E |- *. injection E as E1 E2 E3 E4 E5. rewrite E3, E4. reflexivity.
Qed.

Lemma w_C40_new_method : forall o degree degree_control elements direct sum x0_par last_u_par, OcpSpec.aligned o ->
    let created := new_method o degree degree_control elements direct sum x0_par last_u_par in
    (1 < degree_control -> rate_bounded o -> created = Raise AnyException) /\
    (degree_control <= 1 \/ ~ rate_bounded o ->
     exists k, created = Ok k /\ k_problem k = o /\ k_degree k = degree /\ k_degree_control k = degree_control /\
       k_elements k = elements /\ k_direct k = direct /\ k_cost_as_sum k = sum /\ k_x0_par k = x0_par /\
       (k_last_u_par k = true <-> last_u_par = true \/ o_last_u o <> None)).
Proof.
  intros o degree dc elements direct sum x0_par lu A. cbv zeta.
  destruct (has_delta_u_spec o A) as [b [Eb Hb]]. unfold new_method. rewrite Eb.
  assert (L : forall lu0 : option (list Q), (match lu0 with Some _ => true | None => lu end) = true <-> lu = true \/ lu0 <> None).
  { intros [v|]; split; intro H; try tauto; right; discriminate. }
  split.
  - intros Hd Hr. apply Hb in Hr. apply Nat.ltb_lt in Hd. rewrite Hd, Hr. reflexivity.
  - intro H. destruct (1 <? dc) eqn:Hd.
    + apply Nat.ltb_lt in Hd. destruct b.
      { destruct H as [H|H]; [lia|]. exfalso. apply H, Hb. reflexivity. }
      eexists. split; [reflexivity|]. cbn. do 7 (split; [reflexivity|]). apply L.
    + eexists. split; [reflexivity|]. cbn. do 7 (split; [reflexivity|]). apply L.
Qed.

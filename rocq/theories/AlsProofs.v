(** Trajectories of a problem and of the problem in which some equations are relaxed. *)
From Coq Require Import String Qabs Lqa.
From Verif Require Import Base BaseProofs UtilModel UtilProofs ExprModel ExprProofs NlpModel NlpSpec SysModel SysSpec SysProofs
   OcpModel OcpSpec LagModel LagSpec DiscModel DiscSpec ColSpec ColEvalProofs
   DirSpec DirProofs DirColProofs DirTopProofs AugModel AugSpec AugRelaxProofs AugMoreProofs AlsSpec AlsRelaxProofs.
Local Open Scope list_scope.
Local Open Scope nat_scope.

(** ** Entries that are left *)

Fixpoint rank (f : nat -> bool) (k i : nat) : nat :=
  match i with 0 => 0 | S i' => if f k then rank f (S k) i' else S (rank f (S k) i') end.
Lemma left_rank : forall (A : Type) f (l : list A) k i v, nth_error l i = Some v -> f (k + i) = false ->
    nth_error (left_from f k l) (rank f k i) = Some v.
Proof.
  intros A f l. induction l as [|a l IH]; intros k i v H Hf; [destruct i; discriminate|].
  destruct i as [|i]; cbn [rank left_from].
  - rewrite Nat.add_0_r in Hf. rewrite Hf. exact H.
  - cbn [nth_error] in H. replace (k + S i) with (S k + i) in Hf by lia. specialize (IH (S k) i v H Hf).
    destruct (f k); [exact IH|]. cbn [nth_error]. exact IH.
Qed.
Lemma left_of : forall (A : Type) f (l : list A) k j v, nth_error (left_from f k l) j = Some v ->
    exists i, nth_error l i = Some v /\ f (k + i) = false /\ j = rank f k i.
Proof.
  intros A f l. induction l as [|a l IH]; intros k j v H; [destruct j; discriminate|]. cbn [left_from] in H.
  destruct (f k) eqn:Ek.
  - destruct (IH _ _ _ H) as [i [Hi [Hf Hj]]]. exists (S i). split; [exact Hi|]. split; [rewrite <- Hf; f_equal; lia|].
    cbn [rank]. rewrite Ek. exact Hj.
  - destruct j as [|j]; cbn [nth_error] in H.
    + exists 0. split; [exact H|]. rewrite Nat.add_0_r. split; [exact Ek|reflexivity].
    + destruct (IH _ _ _ H) as [i [Hi [Hf Hj]]]. exists (S i). split; [exact Hi|]. split; [rewrite <- Hf; f_equal; lia|].
      cbn [rank]. rewrite Ek, Hj. reflexivity.
Qed.
Definition place (idx : list nat) (i : nat) : nat := rank (fun k => existsb (Nat.eqb k) idx) 0 i.
Lemma not_listed : forall idx i, existsb (Nat.eqb i) idx = false <-> ~ In i idx.
Proof.
  intros idx i. rewrite <- not_true_iff_false, existsb_exists. split; intros H C; apply H.
  - exists i. split; [exact C|apply Nat.eqb_refl].
  - destruct C as [x [Hx E]]. apply Nat.eqb_eq in E. subst x. exact Hx.
Qed.
Lemma others_at : forall (A : Type) idx (l : list A) i v, nth_error l i = Some v -> ~ In i idx ->
    nth_error (others idx l) (place idx i) = Some v.
Proof. intros A idx l i v H N. rewrite others_from. apply left_rank; [exact H|]. apply not_listed. exact N. Qed.
Lemma others_of : forall (A : Type) idx (l : list A) j v, nth_error (others idx l) j = Some v ->
    exists i, nth_error l i = Some v /\ ~ In i idx /\ j = place idx i.
Proof.
  intros A idx l j v H. rewrite others_from in H. apply left_of in H. destruct H as [i [Hi [Hf Hj]]].
  exists i. split; [exact Hi|]. split; [apply not_listed; exact Hf|exact Hj].
Qed.
Lemma picks_nth : forall (A : Type) (l : list A) idx v j i, picks l idx v -> nth_error idx j = Some i ->
    exists a, nth_error l i = Some a /\ nth_error v j = Some a.
Proof.
  intros A l idx v j i H Hj. unfold picks in H.
  assert (E : nth_error (map (nth_error l) idx) j = nth_error (map Some v) j) by (rewrite H; reflexivity).
  rewrite (map_nth_error (nth_error l) j idx Hj) in E. rewrite nth_error_map in E.
  destruct (nth_error v j) as [a|]; cbn in E; [|discriminate]. exists a. split; [congruence|reflexivity].
Qed.
Lemma seq_nth_error : forall n i j, nth_error (seq 0 n) i = Some j -> i = j /\ i < n.
Proof.
  intros n i j H. assert (Hi : i < n) by (rewrite <- (seq_length n 0); apply nth_error_Some; congruence).
  apply (nth_error_nth _ _ 0) in H. rewrite seq_nth in H by exact Hi. split; [exact H|exact Hi].
Qed.
Lemma nth_error_seq : forall n i, i < n -> nth_error (seq 0 n) i = Some i.
Proof.
  intros n i H. destruct (nth_error (seq 0 n) i) as [j|] eqn:E.
  - apply seq_nth_error in E. destruct E as [-> _]. reflexivity.
  - apply nth_error_None in E. rewrite seq_length in E. lia.
Qed.
Lemma values_nth : forall (f : nat -> Q) n i, i < n -> nth_error (map f (seq 0 n)) i = Some (f i).
Proof. intros f n i H. rewrite nth_error_map, (nth_error_seq n i H). reflexivity. Qed.
Lemma in_nth : forall (v : nat) l, In v l -> exists i, nth_error l i = Some v.
Proof. intros v l H. apply In_nth_error. exact H. Qed.
Lemma nodup_at : forall (l : list nat) i j v, NoDup l -> nth_error l i = Some v -> nth_error l j = Some v -> i = j.
Proof. intros l i j v ND H1 H2. rewrite NoDup_nth_error in ND. apply ND; [apply nth_error_Some; congruence|congruence]. Qed.

Lemma nth_lt : forall (A : Type) (l : list A) i v, nth_error l i = Some v -> i < length l.
Proof. intros A l i v H. apply nth_error_Some. congruence. Qed.
Lemma qsum_split : forall (A : Type) (f g h : A -> Q) l, (forall a, In a l -> f a == g a + h a)%Q ->
    (qsum (map f l) == qsum (map g l) + qsum (map h l))%Q.
Proof.
  intros A f g h l. induction l as [|a l IH]; intros H; [reflexivity|]. cbn [map qsum].
  rewrite (H a (or_introl eq_refl)). assert (E := IH (fun x Hx => H x (or_intror Hx))). rewrite E. ring.
Qed.
Lemma qsum_null : forall (A : Type) (f : A -> Q) l, (forall a, In a l -> f a == 0)%Q -> (qsum (map f l) == 0)%Q.
Proof.
  intros A f l. induction l as [|a l IH]; intros H; [reflexivity|]. cbn [map qsum].
  rewrite (H a (or_introl eq_refl)). assert (E := IH (fun x Hx => H x (or_intror Hx))). rewrite E. ring.
Qed.
Lemma in_nth_any : forall (A : Type) (v : A) l, In v l -> exists i, nth_error l i = Some v.
Proof. intros A v l H. apply In_nth_error. exact H. Qed.
Lemma nth_firstn_local : forall (l : list Q) n i d, i < n -> nth i (firstn n l) d = nth i l d.
Proof.
  induction l as [|a l IH]; intros n i d H; [rewrite firstn_nil; reflexivity|].
  destruct n as [|n]; [lia|]. destruct i as [|i]; [reflexivity|]. cbn [firstn nth]. apply IH. lia.
Qed.
Lemma seq_add : forall n a b, map (fun j => a + j) (seq b n) = seq (a + b) n.
Proof.
  induction n as [|n IH]; intros a b; [reflexivity|]. cbn [seq map]. rewrite IH. repeat f_equal. lia.
Qed.
Lemma combine_fst_local : forall (a b : list Q) x, In x (combine a b) -> In (fst x) a.
Proof. intros a b [x y] H. exact (in_combine_l _ _ _ _ H). Qed.

Section Loose.
  Variables (F : nat -> Q -> Q) (idx vidx eqs : list nat) (mu par : list sym) (pol : list expr) (o o' : ocp) (N : nat).
  Hypothesis HL : loosened F idx vidx eqs mu par pol o o'.
  Hypothesis Hsym : NoDup (user_symbols o').
  Hypothesis Hnames : NoDup (m_y (o_model o)).
  Hypothesis HN : 0 < N.
  Hypothesis Hx0 : length (m_x_0 (o_model o)) = length (m_x (o_model o)).
  Hypothesis Hfresh : forall e v, In e (written o) -> mentions e v -> ~ In v (mu ++ par).

  Hypothesis Hode : length (m_ode (o_model o)) <= length (m_x (o_model o)).

  Lemma steps_same : user_step o' N = user_step o N.
  Proof.
    destruct (lo_same _ _ _ _ _ _ _ _ _ HL) as [_ [E _]]. unfold user_step. injection E as E1 E2 _ _ _. rewrite E1, E2. reflexivity.
  Qed.

  Section Same.
    Variables (q : trajectory) (c : nat -> nat -> list Q) (q' : trajectory) (c' : nat -> nat -> list Q).
    Hypothesis HS : same_trajectory o vidx N q c q' c'.
    Hypothesis Hp : length (q_p q') = length (m_p (o_model o')).
    Hypothesis Hth : forall el, el < N -> length (q_theta q' el) = length (m_theta (o_model o')).
    Hypothesis H0 : length (m_x (o_model o)) <= length (q_x0 q').

    Lemma same_point : forall el tau v, el < N -> ~ In v (mu ++ par) ->
        user_point o' N q' c' el tau v = user_point o N q c el tau v.
    Proof.
      intros el tau v Hel Hv. rewrite in_app_iff in Hv.
      assert (V1 : ~ In v mu) by tauto. assert (V2 : ~ In v par) by tauto. clear Hv.
      destruct (lo_same _ _ _ _ _ _ _ _ _ HL) as [E1 [E2 _]]. cbv zeta in E1. injection E1 as Ex Ex0 Et Etau. injection E2 as _ _ Eeta _ _.
      destruct (lo_variables _ _ _ _ _ _ _ _ _ HL) as [y [Py [Ey [Eu [Ep Eth]]]]].
      destruct (st_rest _ _ _ _ _ _ _ HS) as [Qeta [Qx0 _]].
      assert (Lp : length (q_p q) = length (m_p (o_model o))).
      { rewrite (st_p _ _ _ _ _ _ _ HS), firstn_length, Hp, Ep, app_length. lia. }
      assert (Lth : length (q_theta q el) = length (m_theta (o_model o))).
      { rewrite (st_theta _ _ _ _ _ _ _ HS el Hel), firstn_length, (Hth el Hel), Eth, app_length. lia. }
      pose proof (Hth el Hel) as Lth'. pose proof (st_p _ _ _ _ _ _ _ HS) as Qp. pose proof (st_theta _ _ _ _ _ _ _ HS el Hel) as Qth.
      pose proof Hsym as ND. unfold user_symbols in ND. rewrite Ex, Ex0, Et, Etau, Eeta, Ey, Eu, Ep, Eth in ND.
      unfold user_point, user_symbols. rewrite steps_same, Ex, Ex0, Et, Etau, Eeta, Ey, Eu, Ep, Eth, <- Qeta, <- Qx0.
      cbn [assign]. destruct (Nat.eq_dec v (m_t (o_model o))) as [|_]; [reflexivity|].
      destruct (Nat.eq_dec v (m_tau (o_model o))) as [|_]; [reflexivity|].
      inversion ND as [|? ? _ ND1]; subst. inversion ND1 as [|? ? _ ND2]; subst. clear ND ND1.
      rewrite <- (firstn_skipn (length (m_p (o_model o))) (q_p q')), <- Qp.
      rewrite <- (firstn_skipn (length (m_theta (o_model o))) (q_theta q' el)), <- Qth.
      assert (Lmu : length mu = length (skipn (length (m_p (o_model o))) (q_p q'))).
      { rewrite skipn_length, Hp, Ep, app_length. lia. }
      assert (Lpar : length par = length (skipn (length (m_theta (o_model o))) (q_theta q' el))).
      { rewrite skipn_length, Lth', Eth, app_length. lia. }
      assert (Ectl : map (fun i => poly (c' el i) tau) (seq 0 (length (m_u (o_model o) ++ y))) =
                     map (fun i => poly (c el i) tau) (seq 0 (length (m_u (o_model o)))) ++
                     map (fun j => poly (c' el (length (m_u (o_model o)) + j)) tau) (seq 0 (length y))).
      { rewrite app_length, seq_app, map_app. f_equal.
        - apply map_ext_in. intros i Hi. apply in_seq in Hi. rewrite (st_u _ _ _ _ _ _ _ HS el i Hel) by lia. reflexivity.
        - cbn [Nat.add]. rewrite <- (Nat.add_0_r (length (m_u (o_model o)))) at 1. rewrite <- seq_add, map_map. reflexivity. }
      rewrite Ectl, <- !app_assoc. rewrite <- !app_assoc in ND2.
      assert (Exs : map (fun i => poly (q_x q' el i) tau) (seq 0 (length (m_x (o_model o)))) =
                    map (fun i => poly (q_x q el i) tau) (seq 0 (length (m_x (o_model o))))).
      { apply map_ext_in. intros i Hi. apply in_seq in Hi. rewrite (st_x _ _ _ _ _ _ _ HS el i Hel) by lia. reflexivity. }
      rewrite Exs.
      assert (Lx0 : length (m_x_0 (o_model o)) = length (firstn (length (m_x (o_model o))) (q_x0 q))).
      { rewrite firstn_length, Qx0, Hx0. lia. }
      repeat (rewrite (assign_in_app (fun _ => 0%Q)) by (rewrite ?map_length, ?seq_length; first [reflexivity | assumption | congruence])).
      destruct (in_dec Nat.eq_dec v (m_x (o_model o))) as [|_]; [reflexivity|].
      assert (NDo : NoDup (others vidx (m_y (o_model o)))) by (apply NoDup_app_r in ND2; exact (NoDup_app_l _ _ _ ND2)).
      assert (NDy : NoDup y) by (do 3 apply NoDup_app_r in ND2; exact (NoDup_app_l _ _ _ ND2)).
      assert (DU : In v y -> ~ In v (m_u (o_model o))).
      { intros Hy HU. do 2 apply NoDup_app_r in ND2. apply (NoDup_app_disjoint _ _ _ v ND2 HU). apply in_or_app. left. exact Hy. }
      destruct (in_dec Nat.eq_dec v (m_y (o_model o))) as [Iy|Ny].
      - destruct (in_nth _ _ Iy) as [i Hi].
        assert (Hiy : i < length (m_y (o_model o))) by exact (nth_lt _ _ _ _ Hi).
        rewrite (assign_nth _ _ _ i v (poly (q_y q el i) tau) Hnames Hi) by (apply (values_nth (fun i => poly (q_y q el i) tau)); exact Hiy).
        destruct (in_dec Nat.eq_dec i vidx) as [Iv|Nv].
        + destruct (in_dec Nat.eq_dec v (others vidx (m_y (o_model o)))) as [C|_].
          { destruct (in_nth _ _ C) as [j Hj]. destruct (others_of _ _ _ _ _ Hj) as [i2 [H2 [N2 _]]].
            exfalso. apply N2. rewrite (nodup_at _ _ _ _ Hnames H2 Hi). exact Iv. }
          destruct (in_nth _ _ Iv) as [j Hj]. destruct (picks_nth _ _ _ _ _ _ Py Hj) as [a [Ha Hb]].
          assert (Eav : Some a = Some v) by exact (eq_trans (eq_sym Ha) Hi). injection Eav as ->.
          destruct (in_dec Nat.eq_dec v (m_u (o_model o))) as [C|_]; [exfalso; exact (DU (nth_error_In _ _ Hb) C)|].
          destruct (in_dec Nat.eq_dec v y) as [_|C]; [|exfalso; apply C; exact (nth_error_In _ _ Hb)].
          assert (Hjy : j < length y) by exact (nth_lt _ _ _ _ Hb).
          rewrite (assign_nth _ _ _ j v (poly (c' el (length (m_u (o_model o)) + j)) tau) NDy Hb)
            by (apply (values_nth (fun j => poly (c' el (length (m_u (o_model o)) + j)) tau)); exact Hjy).
          rewrite (st_freed _ _ _ _ _ _ _ HS el i j Hel Hj). reflexivity.
        + pose proof (others_at _ vidx _ _ _ Hi Nv) as Ho.
          destruct (in_dec Nat.eq_dec v (others vidx (m_y (o_model o)))) as [_|C]; [|exfalso; apply C; exact (nth_error_In _ _ Ho)].
          assert (Hjo : place vidx i < length (others vidx (m_y (o_model o)))) by exact (nth_lt _ _ _ _ Ho).
          rewrite (assign_nth _ _ _ (place vidx i) v (poly (q_y q' el (place vidx i)) tau) NDo Ho)
            by (apply (values_nth (fun j => poly (q_y q' el j) tau)); exact Hjo).
          rewrite (st_y _ _ _ _ _ _ _ HS el i (place vidx i) Hel); [reflexivity|].
          apply others_at; [apply nth_error_seq; exact Hiy|exact Nv].
      - destruct (in_dec Nat.eq_dec v (others vidx (m_y (o_model o)))) as [C|_]; [exfalso; apply Ny; exact (others_incl _ _ _ _ C)|].
        destruct (in_dec Nat.eq_dec v (m_u (o_model o))) as [_|_]; [reflexivity|].
        destruct (in_dec Nat.eq_dec v y) as [C|_]; [exfalso; apply Ny; exact (picks_incl _ _ _ _ _ Py C)|].
        destruct (in_dec Nat.eq_dec v (m_p (o_model o))) as [_|_]; [reflexivity|].
        destruct (in_dec Nat.eq_dec v mu) as [C|_]; [contradiction|].
        destruct (in_dec Nat.eq_dec v (m_theta (o_model o))) as [_|_]; [reflexivity|].
        destruct (in_dec Nat.eq_dec v par) as [C|_]; [contradiction|]. reflexivity.
    Qed.

    Lemma same_eval : forall el tau e, el < N -> In e (written o) ->
        eval F (user_point o' N q' c' el tau) e = eval F (user_point o N q c el tau) e.
    Proof. intros el tau e Hel He. apply eval_ext. intros v Hv. apply same_point; [exact Hel|exact (Hfresh e v He Hv)]. Qed.
    Lemma same_vanishing : forall es el tau, el < N -> incl es (written o) ->
        (user_vanishes F o' N q' c' es el tau <-> user_vanishes F o N q c es el tau).
    Proof.
      intros es el tau Hel Hi. unfold user_vanishes. split; intros H e He; specialize (H e He);
        rewrite same_eval in * by (try exact Hel; apply Hi; exact He); exact H.
    Qed.

    (** *** Bounds *)
    Hypothesis Halign : aligned o.
    Hypothesis Hown : incl (o_p_opt o) (m_p (o_model o)) /\ incl (o_theta_opt o) (m_theta (o_model o)).

    Lemma own_left : forall (a b opt : list sym) (v v' : list Q) j i s w, NoDup (a ++ b) -> incl opt a -> length v = length a ->
        v = firstn (length a) v' -> nth_error opt j = Some s -> nth_error (a ++ b) i = Some s -> nth_error v' i = Some w ->
        nth_error a i = Some s /\ nth_error v i = Some w.
    Proof.
      intros a b opt v v' j i s w ND Hi Lv Ev Hj Hs Hw.
      assert (Ha : In s a) by (apply Hi; exact (nth_error_In _ _ Hj)). destruct (in_nth _ _ Ha) as [i2 H2].
      assert (E : i2 = i).
      { apply (nodup_at (a ++ b) i2 i s ND); [|exact Hs]. rewrite nth_error_app1 by exact (nth_lt _ _ _ _ H2). exact H2. }
      subst i2. split; [exact H2|]. pose proof (nth_lt _ _ _ _ H2) as Hlt. rewrite Ev.
      rewrite <- (firstn_skipn (length a) v') in Hw. rewrite nth_error_app1 in Hw; [exact Hw|]. rewrite <- Ev, Lv. exact Hlt.
    Qed.
    Lemma own_right : forall (a b : list sym) (v v' : list Q) i s w, length v = length a ->
        v = firstn (length a) v' -> nth_error a i = Some s -> nth_error v i = Some w ->
        nth_error (a ++ b) i = Some s /\ nth_error v' i = Some w.
    Proof.
      intros a b v v' i s w Lv Ev Hs Hw. pose proof (nth_lt _ _ _ _ Hs) as Hlt.
      split; [rewrite nth_error_app1 by exact Hlt; exact Hs|].
      rewrite <- (firstn_skipn (length a) v'), nth_error_app1; [rewrite <- Ev; exact Hw|]. rewrite <- Ev, Lv. exact Hlt.
    Qed.

    Lemma par_lengths : length (q_p q) = length (m_p (o_model o)) /\
        forall el, el < N -> length (q_theta q el) = length (m_theta (o_model o)).
    Proof.
      destruct (lo_variables _ _ _ _ _ _ _ _ _ HL) as [y [_ [_ [_ [Ep Eth]]]]]. split.
      - rewrite (st_p _ _ _ _ _ _ _ HS), firstn_length, Hp, Ep, app_length. lia.
      - intros el Hel. rewrite (st_theta _ _ _ _ _ _ _ HS el Hel), firstn_length, (Hth el Hel), Eth, app_length. lia.
    Qed.
    Lemma blocks_distinct : NoDup (m_p (o_model o) ++ mu) /\ NoDup (m_theta (o_model o) ++ par).
    Proof.
      destruct (lo_variables _ _ _ _ _ _ _ _ _ HL) as [y [_ [_ [_ [Ep Eth]]]]].
      pose proof Hsym as ND. unfold user_symbols in ND. rewrite Ep, Eth in ND.
      inversion ND as [|? ? _ ND1]; subst. inversion ND1 as [|? ? _ ND2]; subst. do 3 apply NoDup_app_r in ND2.
      split; [exact (NoDup_app_l _ _ _ ND2)|]. apply NoDup_app_r in ND2. exact (NoDup_app_l _ _ _ ND2).
    Qed.

    Lemma same_within : forall upts pts, vidx = [] \/ upts = pts ->
        (user_within o' N q' c' upts pts <-> user_within o N q c upts pts).
    Proof.
      intros upts pts Hdeg.
      destruct (lo_same _ _ _ _ _ _ _ _ _ HL) as [E1 [E2 [E3 _]]]. cbv zeta in E1. injection E1 as Ex _ _ _. injection E2 as _ _ _ Epo Eto.
      injection E3 as Exl Exh Epl Eph Etl Eth'.
      destruct (lo_variables _ _ _ _ _ _ _ _ _ HL) as [y [Py [Ey [Eu [Ep Eth]]]]].
      destruct (lo_bounds _ _ _ _ _ _ _ _ _ HL) as [lo [hi [Plo [Phi [Eyl [Eyh [Eul [Euh _]]]]]]]].
      destruct Halign as [_ [[Ayl Ayh] [[Aul [Auh _]] _]]].
      destruct par_lengths as [Lp Lth]. destruct blocks_distinct as [NDp NDt].
      assert (Ly : length y = length vidx) by exact (picks_length _ _ _ _ Py).
      assert (Llo : length lo = length vidx) by exact (picks_length _ _ _ _ Plo).
      assert (Lhi : length hi = length vidx) by exact (picks_length _ _ _ _ Phi).
      split; intros [W1 W2 W3 W4 W5]; constructor.
      - intros el tau i l h Hel Ht Hi Hl Hh. rewrite <- (st_x _ _ _ _ _ _ _ HS el i Hel Hi). apply (W1 el tau i); rewrite ?Ex, ?Exl, ?Exh; assumption.
      - intros el tau i l h Hel Ht Hi Hl Hh. destruct (in_dec Nat.eq_dec i vidx) as [Iv|Nv].
        + destruct Hdeg as [Hv | Hu]; [rewrite Hv in Iv; destruct Iv|subst upts]. destruct (in_nth _ _ Iv) as [j Hj].
          destruct (picks_nth _ _ _ _ _ _ Plo Hj) as [l2 [Hl2 Hlo]]. destruct (picks_nth _ _ _ _ _ _ Phi Hj) as [h2 [Hh2 Hhi]].
          assert (l2 = l) by congruence. assert (h2 = h) by congruence. subst l2 h2.
          rewrite <- (st_freed _ _ _ _ _ _ _ HS el i j Hel Hj).
          apply (W3 el tau (length (m_u (o_model o)) + j)); [exact Hel|exact Ht| | |].
          * rewrite Eu, app_length, Ly. pose proof (nth_lt _ _ _ _ Hj). lia.
          * rewrite Eul, nth_error_app2 by lia. rewrite Aul. replace (length (m_u (o_model o)) + j - length (m_u (o_model o))) with j by lia. exact Hlo.
          * rewrite Euh, nth_error_app2 by lia. rewrite Auh. replace (length (m_u (o_model o)) + j - length (m_u (o_model o))) with j by lia. exact Hhi.
        + rewrite <- (st_y _ _ _ _ _ _ _ HS el i (place vidx i) Hel) by (apply others_at; [apply nth_error_seq; exact Hi|exact Nv]).
          apply (W2 el tau (place vidx i)); [exact Hel|exact Ht| | |].
          * rewrite Ey. destruct (nth_error (m_y (o_model o)) i) as [v|] eqn:Ev; [|apply nth_error_None in Ev; lia].
            exact (nth_lt _ _ _ _ (others_at _ vidx _ _ _ Ev Nv)).
          * rewrite Eyl. apply others_at; assumption.
          * rewrite Eyh. apply others_at; assumption.
      - intros el tau i l h Hel Ht Hi Hl Hh. rewrite <- (st_u _ _ _ _ _ _ _ HS el i Hel Hi).
        apply (W3 el tau i); [exact Hel|exact Ht| | |].
        + rewrite Eu, app_length. lia.
        + rewrite Eul, nth_error_app1 by lia. exact Hl.
        + rewrite Euh, nth_error_app1 by lia. exact Hh.
      - intros j i s a l h Hj Hi Ha Hl Hh.
        destruct (own_right _ mu _ _ _ _ _ Lp (st_p _ _ _ _ _ _ _ HS) Hi Ha) as [Hi' Ha'].
        apply (W4 j i s a l h); rewrite ?Epo, ?Ep, ?Epl, ?Eph; assumption.
      - intros el j i s a l h Hel Hj Hi Ha Hl Hh.
        destruct (own_right _ par _ _ _ _ _ (Lth el Hel) (st_theta _ _ _ _ _ _ _ HS el Hel) Hi Ha) as [Hi' Ha'].
        apply (W5 el j i s a l h Hel); rewrite ?Eto, ?Eth, ?Etl, ?Eth'; assumption.
      - intros el tau i l h Hel Ht Hi Hl Hh. rewrite Ex in Hi. rewrite (st_x _ _ _ _ _ _ _ HS el i Hel Hi). rewrite Exl in Hl. rewrite Exh in Hh.
        apply (W1 el tau i); assumption.
      - intros el tau i l h Hel Ht Hi Hl Hh. rewrite Eyl in Hl. rewrite Eyh in Hh.
        destruct (others_of _ _ _ _ _ Hl) as [i2 [Hl2 [N2 Hi2]]]. destruct (others_of _ _ _ _ _ Hh) as [i3 [Hh3 [N3 Hi3]]].
        assert (i3 = i2).
        { assert (Hs2 : nth_error (others vidx (seq 0 (length (m_y (o_model o))))) i = Some i2).
          { rewrite Hi2. apply others_at; [apply nth_error_seq; pose proof (nth_lt _ _ _ _ Hl2); lia|exact N2]. }
          assert (Hs3 : nth_error (others vidx (seq 0 (length (m_y (o_model o))))) i = Some i3).
          { rewrite Hi3. apply others_at; [apply nth_error_seq; pose proof (nth_lt _ _ _ _ Hh3); lia|exact N3]. }
          congruence. }
        subst i3. assert (Hn : i2 < length (m_y (o_model o))) by (pose proof (nth_lt _ _ _ _ Hl2); lia).
        rewrite (st_y _ _ _ _ _ _ _ HS el i2 i Hel) by (rewrite Hi2; apply others_at; [apply nth_error_seq; exact Hn|exact N2]).
        apply (W2 el tau i2); assumption.
      - intros el tau i l h Hel Ht Hi Hl Hh. rewrite Eu, app_length, Ly in Hi. rewrite Eul in Hl. rewrite Euh in Hh.
        destruct (Nat.lt_ge_cases i (length (m_u (o_model o)))) as [Hlt|Hgt].
        + rewrite nth_error_app1 in Hl, Hh by lia. rewrite (st_u _ _ _ _ _ _ _ HS el i Hel Hlt). apply (W3 el tau i); assumption.
        + rewrite nth_error_app2 in Hl, Hh by lia. rewrite Aul in Hl. rewrite Auh in Hh.
          set (j := i - length (m_u (o_model o))) in *. assert (Ei : i = length (m_u (o_model o)) + j) by (unfold j; lia).
          destruct Hdeg as [Hv | Hu]; [rewrite Hv in Hi; cbn in Hi; lia|subst upts].
          destruct (nth_error vidx j) as [i2|] eqn:Hj; [|apply nth_error_None in Hj; lia].
          destruct (picks_nth _ _ _ _ _ _ Plo Hj) as [l2 [Hl2 Hlo]]. destruct (picks_nth _ _ _ _ _ _ Phi Hj) as [h2 [Hh2 Hhi]].
          assert (l2 = l) by congruence. assert (h2 = h) by congruence. subst l2 h2.
          rewrite Ei, (st_freed _ _ _ _ _ _ _ HS el i2 j Hel Hj). apply (W2 el tau i2); try assumption.
          pose proof (nth_lt _ _ _ _ Hl2). lia.
      - intros j i s a l h Hj Hi Ha Hl Hh. rewrite Epo in Hj. rewrite Ep in Hi. rewrite Epl in Hl. rewrite Eph in Hh.
        destruct (own_left _ mu _ _ _ _ _ _ _ NDp (proj1 Hown) Lp (st_p _ _ _ _ _ _ _ HS) Hj Hi Ha) as [Hi' Ha'].
        apply (W4 j i s a l h); assumption.
      - intros el j i s a l h Hel Hj Hi Ha Hl Hh. rewrite Eto in Hj. rewrite Eth in Hi. rewrite Etl in Hl. rewrite Eth' in Hh.
        destruct (own_left _ par _ _ _ _ _ _ _ NDt (proj2 Hown) (Lth el Hel) (st_theta _ _ _ _ _ _ _ HS el Hel) Hj Hi Ha) as [Hi' Ha'].
        apply (W5 el j i s a l h Hel); assumption.
    Qed.

    (** *** Equations *)
    Variables (ga ge : list expr).
    Hypothesis Hga : picks (m_alg (o_model o)) idx ga.
    Hypothesis Hge : picks (o_g_eq o) eqs ge.
    Hypothesis Hcount : length (m_alg (o_model o)) = length (m_y (o_model o)).
    Hypothesis Honce : NoDup idx.
    Hypothesis Hpairs : length vidx = length idx.
    Hypothesis Htimes : length (o_when_eq o) = length (o_g_eq o).
    Hypothesis Hdefault : forall i w, In i eqs -> nth_error (o_when_eq o) i = Some w -> w = "default"%string.

    Lemma emptied : m_y (o_model o') = [] -> m_alg (o_model o') = [].
    Proof.
      intros H. destruct (lo_variables _ _ _ _ _ _ _ _ _ HL) as [y [_ [Ey _]]]. rewrite Ey in H.
      destruct (lo_equations _ _ _ _ _ _ _ _ _ HL) as [_ [Ea _]]. rewrite Ea.
      assert (I1 : incl (seq 0 (length (m_y (o_model o)))) vidx).
      { intros i Hi. apply in_seq in Hi. destruct (in_dec Nat.eq_dec i vidx) as [Iv|Nv]; [exact Iv|].
        destruct (nth_error (m_y (o_model o)) i) as [v|] eqn:Ev; [|apply nth_error_None in Ev; lia].
        pose proof (others_at _ vidx _ _ _ Ev Nv) as C. rewrite H in C. destruct (place vidx i); discriminate. }
      apply NoDup_incl_length in I1; [|apply seq_NoDup]. rewrite seq_length, Hpairs in I1.
      assert (I2 : incl idx (seq 0 (length (m_alg (o_model o))))).
      { intros i Hi. destruct (in_nth _ _ Hi) as [j Hj]. destruct (picks_nth _ _ _ _ _ _ Hga Hj) as [a [Ha _]].
        apply in_seq. pose proof (nth_lt _ _ _ _ Ha). lia. }
      apply NoDup_length_incl in I2; [|exact Honce|rewrite seq_length, Hcount; exact I1].
      destruct (others idx (m_alg (o_model o))) as [|a l] eqn:El; [reflexivity|].
      assert (H1 : nth_error (others idx (m_alg (o_model o))) 0 = Some a) by (rewrite El; reflexivity).
      destruct (others_of _ _ _ _ _ H1) as [i [Hi [Ni _]]]. exfalso. apply Ni, I2, in_seq. pose proof (nth_lt _ _ _ _ Hi). lia.
    Qed.
    Lemma relaxed_written : incl (ga ++ ge) (written o).
    Proof.
      intros e He. apply in_written. apply in_app_or in He.
      destruct He as [He|He]; [pose proof (picks_incl _ _ _ _ _ Hga He)|pose proof (picks_incl _ _ _ _ _ Hge He)]; tauto.
    Qed.
    Lemma same_increment : forall el i, el < N -> i < length (m_u (o_model o)) -> (increment q' el i == increment q el i)%Q.
    Proof.
      intros el i Hel Hi. unfold increment. rewrite (st_par _ _ _ _ _ _ _ HS el i Hel Hi).
      assert (E : (nth i (control_before q' el) 0 == nth i (control_before q el) 0)%Q); [|rewrite E; reflexivity].
      destruct el as [|el]; cbn [control_before].
      - destruct (st_rest _ _ _ _ _ _ _ HS) as [_ [_ ->]]. rewrite nth_firstn_local by exact Hi. reflexivity.
      - apply (st_par _ _ _ _ _ _ _ HS el i); [lia|exact Hi].
    Qed.

    Theorem same_collocated : forall pts,
        user_collocated F o N q c pts <->
        user_collocated F o' N q' c' pts /\
        forall el tau, el < N -> In tau pts -> user_vanishes F o' N q' c' (ga ++ ge) el tau.
    Proof.
      intros pts.
      destruct (lo_same _ _ _ _ _ _ _ _ _ HL) as [E1 [_ [_ [Ewi _]]]]. cbv zeta in E1. injection E1 as Ex _ _ _.
      destruct (lo_variables _ _ _ _ _ _ _ _ _ HL) as [y [Py [Ey _]]].
      destruct (lo_bounds _ _ _ _ _ _ _ _ _ HL) as [lo [hi [_ [_ [_ [_ [_ [_ [Edl Edh]]]]]]]]].
      destruct (lo_equations _ _ _ _ _ _ _ _ _ HL) as [Eo [Ea [Eg [Ei [Ehi [Ehf [Eh _]]]]]]].
      pose proof (lo_when _ _ _ _ _ _ _ _ _ HL) as Ew. destruct Halign as [_ [_ [[_ [_ [Adl Adh]]] _]]].
      assert (Wr : forall l, (forall e, In e l -> In e (written o)) -> incl l (written o)) by (intros l Hl e He; exact (Hl e He)).
      assert (Wode : forall i s e, nth_error (m_ode (o_model o)) i = Some (s, Some e) -> In e (written o)).
      { intros i s e Hi. apply in_written. do 9 right. exists s. exact (nth_error_In _ _ Hi). }
      split.
      - intros [U1 U2 U3 U4 U5 U6 U7 U8 U9]. split; [constructor|].
        + rewrite Ehi. apply same_vanishing; [exact HN|apply Wr; intros; apply in_written; tauto|exact U1].
        + intros el i Hel Hi. rewrite Ex in Hi. rewrite !(st_x _ _ _ _ _ _ _ HS) by (assumption || lia). apply U2; assumption.
        + intros el tau i s e Hel Ht Hi. rewrite Eo in Hi.
          assert (Hlt : i < length (m_x (o_model o')))
            by (rewrite Ex; apply (Nat.lt_le_trans _ (length (m_ode (o_model o)))); [exact (nth_lt _ _ _ _ Hi)|exact Hode]).
          rewrite Ex in Hlt. rewrite (st_x _ _ _ _ _ _ _ HS el i Hel Hlt), (steps_same), same_eval by (try exact Hel; exact (Wode _ _ _ Hi)).
          apply (U3 el tau i s e Hel Ht Hi).
        + intros el tau Hel Ht Hy. rewrite Ea. apply same_vanishing; [exact Hel|apply Wr; intros e He; apply in_written; apply others_incl in He; tauto|].
          intros e He. apply (U4 el tau Hel Ht); [|apply others_incl in He; exact He].
          intros C. apply Hy. rewrite Ey, C. reflexivity.
        + intros el i l h Hel Hl Hh. rewrite Edl in Hl. rewrite Edh in Hh.
          destruct (Nat.lt_ge_cases i (length (m_u (o_model o)))) as [Hlt|Hgt].
          * rewrite nth_error_app1 in Hl, Hh by lia. apply (ext_le_compat l h _ _ (same_increment el i Hel Hlt)). apply (U5 el i); assumption.
          * rewrite nth_error_app2 in Hl, Hh by lia. apply nth_error_In in Hl. apply nth_error_In in Hh.
            apply repeat_spec in Hl. apply repeat_spec in Hh. subst l h. cbn. tauto.
        + intros el j g w tau Hel Hg Hw Ht. rewrite Ei in Hg. rewrite Ewi in Hw.
          rewrite same_eval by (try exact Hel; apply in_written; pose proof (nth_error_In _ _ Hg); tauto). apply (U6 el j g w tau); assumption.
        + intros el j g w tau Hel Hg Hw Ht. rewrite Eg in Hg. rewrite Ew in Hw.
          destruct (others_of _ _ _ _ _ Hg) as [i2 [Hg2 [N2 Hi2]]]. destruct (others_of _ _ _ _ _ Hw) as [i3 [Hw3 [N3 Hi3]]].
          assert (E32 : i3 = i2).
          { assert (Hs2 : nth_error (others eqs (seq 0 (length (o_g_eq o)))) j = Some i2).
            { rewrite Hi2. apply others_at; [apply nth_error_seq; exact (nth_lt _ _ _ _ Hg2)|exact N2]. }
            assert (Hs3 : nth_error (others eqs (seq 0 (length (o_g_eq o)))) j = Some i3).
            { rewrite Hi3. apply others_at; [apply nth_error_seq; pose proof (nth_lt _ _ _ _ Hw3); lia|exact N3]. }
            congruence. }
          subst i3. rewrite same_eval by (try exact Hel; apply in_written; pose proof (nth_error_In _ _ Hg2); tauto).
          apply (U7 el i2 g w tau); assumption.
        + rewrite Ehf. apply same_vanishing; [lia|apply Wr; intros; apply in_written; tauto|exact U8].
        + rewrite Eh. apply same_vanishing; [lia|apply Wr; intros; apply in_written; tauto|exact U9].
        + intros el tau Hel Ht. apply same_vanishing; [exact Hel|exact relaxed_written|]. intros e He. apply in_app_or in He. destruct He as [He|He].
          * apply (U4 el tau Hel Ht); [|exact (picks_incl _ _ _ _ _ Hga He)].
            intros C. pose proof (picks_length _ _ _ _ Hga) as L1. pose proof (picks_length _ _ _ _ Py) as L2.
            assert (L3 : length vidx = 0).
            { destruct vidx as [|i v]; [reflexivity|]. destruct (picks_nth _ _ _ _ 0 i Py eq_refl) as [a [Hn _]]. rewrite C in Hn. destruct i; discriminate. }
            rewrite Hpairs in L3. rewrite L3 in L1. destruct ga; [destruct He|discriminate].
          * apply (picks_In _ _ _ _ _ Hge) in He. destruct He as [i [Hi He]].
            destruct (nth_error (o_when_eq o) i) as [w|] eqn:Hw; [|apply nth_error_None in Hw; pose proof (nth_lt _ _ _ _ He); lia].
            apply (U7 el i e w tau Hel He Hw). rewrite (Hdefault i w Hi Hw). exact Ht.
      - intros [[U1 U2 U3 U4 U5 U6 U7 U8 U9] Hv]. constructor.
        + rewrite Ehi in U1. apply same_vanishing in U1; [exact U1|exact HN|apply Wr; intros; apply in_written; tauto].
        + intros el i Hel Hi. rewrite <- !(st_x _ _ _ _ _ _ _ HS) by (assumption || lia). apply U2; [exact Hel|rewrite Ex; exact Hi].
        + intros el tau i s e Hel Ht Hi.
          assert (Hlt : i < length (m_x (o_model o))) by (apply (Nat.lt_le_trans _ (length (m_ode (o_model o)))); [exact (nth_lt _ _ _ _ Hi)|exact Hode]).
          rewrite <- (st_x _ _ _ _ _ _ _ HS el i Hel Hlt), <- (steps_same), <- same_eval by (try exact Hel; exact (Wode _ _ _ Hi)).
          apply (U3 el tau i s e Hel Ht). rewrite Eo. exact Hi.
        + intros el tau Hel Ht Hy e He. destruct (in_nth_any _ _ _ He) as [i Hi].
          destruct (in_dec Nat.eq_dec i idx) as [Ii|Ni].
          * assert (Hin : In e ga) by (apply (picks_In _ _ _ _ _ Hga); exists i; split; [exact Ii|exact Hi]).
            assert (Hvan := proj1 (same_vanishing _ el tau Hel relaxed_written) (Hv el tau Hel Ht)). apply Hvan, in_or_app. left. exact Hin.
          * pose proof (others_at _ idx _ _ _ Hi Ni) as Ho.
            assert (Hy' : m_y (o_model o') <> []).
            { intros C. apply emptied in C. rewrite Ea in C. rewrite C in Ho. destruct (place idx i); discriminate. }
            pose proof (U4 el tau Hel Ht Hy') as Uv. rewrite Ea in Uv.
            assert (Hvan := Uv e (nth_error_In _ _ Ho)). rewrite same_eval in Hvan by (try exact Hel; apply in_written; tauto). exact Hvan.
        + intros el i l h Hel Hl Hh. assert (Hlt : i < length (m_u (o_model o))) by (pose proof (nth_lt _ _ _ _ Hl); lia).
          apply (ext_le_compat l h _ _ (same_increment el i Hel Hlt)).
          apply (U5 el i); [exact Hel|rewrite Edl, nth_error_app1 by lia; exact Hl|rewrite Edh, nth_error_app1 by lia; exact Hh].
        + intros el j g w tau Hel Hg Hw Ht.
          rewrite <- same_eval by (try exact Hel; apply in_written; pose proof (nth_error_In _ _ Hg); tauto).
          apply (U6 el j g w tau); rewrite ?Ei, ?Ewi; assumption.
        + intros el j g w tau Hel Hg Hw Ht. destruct (in_dec Nat.eq_dec j eqs) as [Ij|Nj].
          * assert (Hin : In g ge) by (apply (picks_In _ _ _ _ _ Hge); exists j; split; [exact Ij|exact Hg]).
            rewrite (Hdefault j w Ij Hw) in Ht. change (imposed pts "default") with pts in Ht.
            assert (Hvan := proj1 (same_vanishing _ el tau Hel relaxed_written) (Hv el tau Hel Ht)). apply Hvan, in_or_app. right. exact Hin.
          * rewrite <- same_eval by (try exact Hel; apply in_written; pose proof (nth_error_In _ _ Hg); tauto).
            apply (U7 el (place eqs j) g w tau Hel); [rewrite Eg|rewrite Ew|exact Ht]; apply others_at; assumption.
        + rewrite Ehf in U8. apply same_vanishing in U8; [exact U8|lia|apply Wr; intros; apply in_written; tauto].
        + rewrite Eh in U9. apply same_vanishing in U9; [exact U9|lia|apply Wr; intros; apply in_written; tauto].
    Qed.

    (** *** Cost *)
    Theorem same_cost : forall l v w pts b, o_L o = [l] -> o_V o = [v] -> o_S o = [w] ->
        (forall env, Forall2 (fun l l' => eval F env l' == eval F env l +
           penalty_value (map (eval F env) pol) (map env mu) (map (eval F env) (ga ++ ge)))%Q (o_L o) (o_L o')) ->
        exists l', o_L o' = [l'] /\ o_V o' = [v] /\ o_S o' = [w] /\
          (user_cost F o' N q' c' v l' w pts b ==
           user_cost F o N q c v l w pts b + penalty_total F o' N q' c' pol mu (ga ++ ge) pts b)%Q.
    Proof.
      intros l v w pts b El Ev Ew Hpen.
      destruct (lo_equations _ _ _ _ _ _ _ _ _ HL) as [_ [_ [_ [_ [_ [_ [_ [EV ES]]]]]]]].
      rewrite El in Hpen. assert (Hl' : exists l', o_L o' = [l']).
      { specialize (Hpen (fun _ => 0%Q)). inversion Hpen as [|? l' ? t _ Ht]; subst. inversion Ht; subst. exists l'. reflexivity. }
      destruct Hl' as [l' El']. exists l'. split; [exact El'|]. rewrite EV, ES. split; [exact Ev|]. split; [exact Ew|].
      rewrite El' in Hpen. unfold user_cost, penalty_total. rewrite steps_same.
      assert (Wv : In v (written o)) by (apply in_written; rewrite Ev; cbn; tauto).
      assert (Ww : In w (written o)) by (apply in_written; rewrite Ew; cbn; tauto).
      assert (Wl : In l (written o)) by (apply in_written; rewrite El; cbn; tauto).
      rewrite (same_eval (N - 1) 1 v) by (try exact Wv; lia).
      assert (Eends : map (fun el => eval F (user_point o' N q' c' el 1) w) (seq 0 N) = map (fun el => eval F (user_point o N q c el 1) w) (seq 0 N)).
      { apply map_ext_in. intros el Hel. apply in_seq in Hel. apply same_eval; [lia|exact Ww]. }
      rewrite Eends.
      match goal with |- (_ + ?a == _ + ?b + ?d)%Q => assert (Er : (a == b + d)%Q) end; [|rewrite Er; ring].
      apply qsum_split. intros el Hel. apply in_seq in Hel. assert (Hlt : el < N) by lia.
      rewrite <- Qmult_plus_distr_r. apply Qmult_comp; [reflexivity|]. apply qsum_split. intros [t wt] _. cbn [fst snd].
      specialize (Hpen (user_point o' N q' c' el t)). inversion Hpen as [|? ? ? ? Hab _]; subst.
      rewrite Hab, (same_eval el t l Hlt Wl). cbv zeta. ring.
    Qed.
    Lemma penalty_nothing : forall pts b, (forall el tau, el < N -> In tau pts -> user_vanishes F o' N q' c' (ga ++ ge) el tau) ->
        (penalty_total F o' N q' c' pol mu (ga ++ ge) pts b == 0)%Q.
    Proof.
      intros pts b Hv. unfold penalty_total.
      apply qsum_null. intros el Hel. apply in_seq in Hel. assert (Hlt : el < N) by lia.
      rewrite <- (Qmult_0_r (user_step o' N)). apply Qmult_comp; [reflexivity|]. apply qsum_null. intros tb Htb. cbv zeta.
      rewrite penalty_zero; [ring|].
      apply Forall_forall. intros x Hx. apply in_map_iff in Hx. destruct Hx as [e [<- He]].
      exact (Hv el (fst tb) Hlt (combine_fst_local _ _ _ Htb) e He).
    Qed.
  End Same.
End Loose.

(** From trajectories of the relaxed problem to trajectories of the problem of the user, and back. *)
From Coq Require Import String Qabs Lqa.
From Verif Require Import Base BaseProofs UtilModel UtilProofs ExprModel ExprProofs NlpModel NlpSpec SysModel SysSpec SysProofs
   OcpModel OcpSpec LagModel LagSpec DiscModel DiscSpec ColSpec ColEvalProofs
   DirSpec DirProofs DirColProofs DirTopProofs AugModel AugSpec AugRelaxProofs AugMoreProofs AlsSpec AlsRelaxProofs AlsProofs.
Local Open Scope list_scope.
Local Open Scope nat_scope.

(** ** Values of polynomials, point by point *)

Definition rowwise (n : nat) (f : nat -> list Q) (upts : list Q) : list Q :=
  flat_map (fun tau => map (fun i => poly (f i) tau) (seq 0 n)) upts.
Lemma rowwise_length : forall n f upts, length (rowwise n f upts) = length upts * n.
Proof.
  intros n f upts. unfold rowwise. induction upts as [|t l IH]; [reflexivity|].
  cbn [flat_map length]. rewrite app_length, map_length, seq_length, IH. reflexivity.
Qed.
Lemma rowwise_nth : forall n f upts j tau i, nth_error upts j = Some tau -> i < n ->
    nth_error (rowwise n f upts) (j * n + i) = Some (poly (f i) tau).
Proof.
  intros n f upts. unfold rowwise. induction upts as [|t l IH]; intros j tau i Hj Hi; [destruct j; discriminate|].
  cbn [flat_map]. destruct j as [|j].
  - injection Hj as ->. cbn [Nat.mul Nat.add]. rewrite nth_error_app1 by (rewrite map_length, seq_length; exact Hi).
    apply (values_nth (fun i => poly (f i) tau)). exact Hi.
  - rewrite nth_error_app2 by (rewrite map_length, seq_length; nia). rewrite map_length, seq_length.
    replace (S j * n + i - n) with (j * n + i) by nia. apply IH; assumption.
Qed.
Lemma rowwise_through : forall n f upts, (forall i, i < n -> length (f i) <= length upts) -> through upts n (rowwise n f upts) f.
Proof.
  intros n f upts H i Hi. split; [exact (H i Hi)|]. intros j tau v Hj Hv. rewrite (rowwise_nth n f upts j tau i Hj Hi) in Hv.
  injection Hv as <-. reflexivity.
Qed.
Lemma through_first : forall upts n par f i, through upts n par f -> 0 < length upts -> length par = length upts * n -> i < n ->
    (nth i par 0 == nth i (rowwise n f upts) 0)%Q.
Proof.
  intros upts n par f i H Hu Lp Hi. destruct upts as [|t l]; [cbn in Hu; lia|].
  assert (E : nth_error (rowwise n f (t :: l)) (0 * n + i) = Some (poly (f i) t)) by (apply rowwise_nth; [reflexivity|exact Hi]).
  cbn [Nat.mul Nat.add] in E. rewrite (nth_error_nth _ _ _ E).
  destruct (nth_error par i) as [v|] eqn:Ev; [|apply nth_error_None in Ev; cbn [length] in Lp; nia].
  rewrite (nth_error_nth _ _ _ Ev). symmetry. apply (proj2 (H i Hi) 0 t v eq_refl Ev).
Qed.
Lemma rowwise_fewer : forall n m f g upts i, i < n -> i < m -> (forall i, i < n -> i < m -> f i = g i) -> 0 < length upts ->
    nth i (rowwise n f upts) 0%Q = nth i (rowwise m g upts) 0%Q.
Proof.
  intros n m f g upts i Hn Hm Hfg Hu. destruct upts as [|t l]; [cbn in Hu; lia|].
  pose proof (rowwise_nth n f (t :: l) 0 t i eq_refl Hn) as E1. pose proof (rowwise_nth m g (t :: l) 0 t i eq_refl Hm) as E2.
  cbn [Nat.mul Nat.add] in E1, E2. rewrite (nth_error_nth _ _ _ E1), (nth_error_nth _ _ _ E2), (Hfg i Hn Hm). reflexivity.
Qed.

(** ** Positions *)

Fixpoint position (i : nat) (l : list nat) : option nat :=
  match l with
  | [] => None
  | a :: l' => if Nat.eqb a i then Some 0 else option_map S (position i l')
  end.
Lemma position_none : forall l i, ~ In i l -> position i l = None.
Proof.
  induction l as [|a l IH]; intros i H; [reflexivity|]. cbn [position]. destruct (Nat.eqb_spec a i) as [->|_]; [exfalso; apply H; left; reflexivity|].
  rewrite IH by (intros C; apply H; right; exact C). reflexivity.
Qed.
Lemma position_nth : forall l i j, NoDup l -> nth_error l j = Some i -> position i l = Some j.
Proof.
  induction l as [|a l IH]; intros i j ND H; [destruct j; discriminate|]. inversion ND as [|? ? Ha ND']; subst.
  destruct j as [|j]; cbn [position].
  - injection H as ->. rewrite Nat.eqb_refl. reflexivity.
  - cbn [nth_error] in H. destruct (Nat.eqb_spec a i) as [->|_]; [exfalso; apply Ha; exact (nth_error_In _ _ H)|].
    rewrite (IH i j ND' H). reflexivity.
Qed.

(** ** From the relaxed problem to the problem of the user *)

Definition restored_y (o : ocp) (vidx : list nat) (q' : trajectory) (c' : nat -> nat -> list Q) (el i : nat) : list Q :=
  match position i vidx with
  | Some j => c' el (length (m_u (o_model o)) + j)
  | None => q_y q' el (place vidx i)
  end.
Definition restored (o : ocp) (vidx : list nat) (upts : list Q) (q' : trajectory) (c' : nat -> nat -> list Q) : trajectory :=
  mkTrajectory (q_x q') (restored_y o vidx q' c') (fun el => rowwise (length (m_u (o_model o))) (c' el) upts)
    (firstn (length (m_p (o_model o))) (q_p q')) (fun el => firstn (length (m_theta (o_model o))) (q_theta q' el))
    (q_eta q') (q_x0 q') (firstn (length (m_u (o_model o))) (q_last_u q')).

Lemma restored_same : forall o o' vidx y N upts q' c',
    NoDup vidx -> m_u (o_model o') = m_u (o_model o) ++ y -> 0 < length upts ->
    (forall el, el < N -> length (q_u q' el) = length upts * length (m_u (o_model o'))) ->
    followed o' N upts q' c' ->
    same_trajectory o vidx N (restored o vidx upts q' c') c' q' c' /\ followed o N upts (restored o vidx upts q' c') c'.
Proof.
  intros o o' vidx y N upts q' c' ND Eu Hu Lu Hf. split.
  - constructor; cbn [restored q_x q_y q_u q_p q_theta q_eta q_x0 q_last_u]; try reflexivity.
    + intros el i j Hel Hj. destruct (others_of _ _ _ _ _ Hj) as [i2 [H2 [N2 Ej]]].
      destruct (seq_nth_error _ _ _ H2) as [E _]. subst i2. unfold restored_y. rewrite (position_none _ _ N2), Ej. reflexivity.
    + intros el i j Hel Hj. unfold restored_y. rewrite (position_nth _ _ _ ND Hj). reflexivity.
    + intros el i Hel Hi. rewrite (through_first upts (length (m_u (o_model o'))) (q_u q' el) (c' el) i (Hf el Hel) Hu (Lu el Hel)).
      * rewrite (rowwise_fewer (length (m_u (o_model o'))) (length (m_u (o_model o))) (c' el) (c' el) upts i);
          [reflexivity|rewrite Eu, app_length; lia|exact Hi|reflexivity|exact Hu].
      * rewrite Eu, app_length. lia.
    + split; [reflexivity|]. split; reflexivity.
  - intros el Hel. cbn [restored q_u]. apply rowwise_through. intros i Hi. apply (Hf el Hel). rewrite Eu, app_length. lia.
Qed.

(** ** From the problem of the user to the relaxed problem *)

Definition lifted_c (o : ocp) (vidx : list nat) (q : trajectory) (c : nat -> nat -> list Q) (el i : nat) : list Q :=
  if i <? length (m_u (o_model o)) then c el i else q_y q el (nth (i - length (m_u (o_model o))) vidx 0).
Definition lifted (o o' : ocp) (vidx : list nat) (N : nat) (upts : list Q) (q' q : trajectory) (c : nat -> nat -> list Q) : trajectory :=
  mkTrajectory (q_x q)
    (fun el j => q_y q el (nth j (others vidx (seq 0 (length (m_y (o_model o))))) 0))
    (fun el => rowwise (length (m_u (o_model o'))) (lifted_c o vidx q c el) upts)
    (q_p q ++ skipn (length (m_p (o_model o))) (q_p q'))
    (fun el => q_theta q el ++ (if el <? N then skipn (length (m_theta (o_model o))) (q_theta q' el)
                                else repeat 0%Q (length (m_theta (o_model o')) - length (m_theta (o_model o)))))
    (q_eta q) (q_x0 q) (q_last_u q').

Lemma firstn_app_exact : forall (A : Type) (a b : list A) n, length a = n -> firstn n (a ++ b) = a.
Proof. intros A a b n <-. rewrite firstn_app, Nat.sub_diag, firstn_all, firstn_O, app_nil_r. reflexivity. Qed.

Lemma lifted_same : forall o o' vidx y N upts pts q q' q2 c2,
    m_u (o_model o') = m_u (o_model o) ++ y -> length y = length vidx -> 0 < length upts ->
    shaped o upts pts q2 -> followed o N upts q2 c2 -> vidx = [] \/ upts = pts ->
    q_last_u q = firstn (length (m_u (o_model o))) (q_last_u q') -> q_last_u q2 = q_last_u q ->
    same_trajectory o vidx N q2 c2 (lifted o o' vidx N upts q' q2 c2) (lifted_c o vidx q2 c2) /\
    followed o' N upts (lifted o o' vidx N upts q' q2 c2) (lifted_c o vidx q2 c2).
Proof.
  intros o o' vidx y N upts pts q q' q2 c2 Eu Ly Hu Hs Hf Hd El El2. split.
  - constructor; cbn [lifted q_x q_y q_u q_p q_theta q_eta q_x0 q_last_u]; try reflexivity.
    + intros el i j Hel Hj. rewrite (nth_error_nth _ _ _ Hj). reflexivity.
    + intros el i j Hel Hj. unfold lifted_c. destruct (Nat.ltb_spec (length (m_u (o_model o)) + j) (length (m_u (o_model o)))); [lia|].
      replace (length (m_u (o_model o)) + j - length (m_u (o_model o))) with j by lia. rewrite (nth_error_nth _ _ _ Hj). reflexivity.
    + intros el i Hel Hi. unfold lifted_c. destruct (Nat.ltb_spec i (length (m_u (o_model o)))); [reflexivity|lia].
    + intros el i Hel Hi.
      rewrite (through_first upts (length (m_u (o_model o))) (q_u q2 el) (c2 el) i (Hf el Hel) Hu (sh_u _ _ _ _ Hs el) Hi).
      rewrite (rowwise_fewer (length (m_u (o_model o'))) (length (m_u (o_model o))) (lifted_c o vidx q2 c2 el) (c2 el) upts i);
        [reflexivity|rewrite Eu, app_length; lia|exact Hi| |exact Hu].
      intros a _ Ha. unfold lifted_c. destruct (Nat.ltb_spec a (length (m_u (o_model o)))); [reflexivity|lia].
    + symmetry. apply firstn_app_exact. apply (sh_p _ _ _ _ Hs).
    + intros el Hel. symmetry. apply firstn_app_exact. apply (sh_theta _ _ _ _ Hs).
    + split; [reflexivity|]. split; [reflexivity|]. rewrite El2. exact El.
  - intros el Hel. cbn [lifted q_u]. apply rowwise_through. intros i Hi. unfold lifted_c.
    destruct (Nat.ltb_spec i (length (m_u (o_model o)))) as [Hlt|Hge]; [apply (Hf el Hel); exact Hlt|].
    destruct Hd as [Hd | Hd].
    + rewrite Hd in Ly. destruct y; [|discriminate]. rewrite Eu, app_nil_r in Hi. lia.
    + rewrite Hd. apply (sh_y _ _ _ _ Hs).
Qed.

Lemma lifted_data : forall o o' vidx N upts pts q q' q2 c2 mu par,
    m_p (o_model o') = m_p (o_model o) ++ mu -> m_theta (o_model o') = m_theta (o_model o) ++ par ->
    o_p_opt o' = o_p_opt o -> o_theta_opt o' = o_theta_opt o ->
    shaped o upts pts q2 -> same_data o N q q2 ->
    length (q_p q') = length (m_p (o_model o')) -> (forall el, el < N -> length (q_theta q' el) = length (m_theta (o_model o'))) ->
    q_p q = firstn (length (m_p (o_model o))) (q_p q') ->
    (forall el, el < N -> q_theta q el = firstn (length (m_theta (o_model o))) (q_theta q' el)) ->
    q_x0 q = q_x0 q' ->
    same_data o' N q' (lifted o o' vidx N upts q' q2 c2).
Proof.
  intros o o' vidx N upts pts q q' q2 c2 mu par Ep Et Eop Eot Hs [D1 D2 D3 D4] Lp Lt Hp Ht Hx.
  assert (W : forall (a b opt : list sym) (v v2 v' : list Q) i s, length v' = length (a ++ b) -> v = firstn (length a) v' ->
      length v2 = length a ->
      (forall i s, nth_error a i = Some s -> ~ In s opt -> nth_error v2 i = nth_error v i) ->
      nth_error (a ++ b) i = Some s -> ~ In s opt -> nth_error (v2 ++ skipn (length a) v') i = nth_error v' i).
  { intros a b opt v v2 v' i s L Ev L2 H Hi Hs'. rewrite app_length in L.
    rewrite <- (firstn_skipn (length a) v') at 2. destruct (Nat.lt_ge_cases i (length a)) as [Hlt|Hge].
    - rewrite nth_error_app1 in Hi by exact Hlt. rewrite !nth_error_app1 by (rewrite ?firstn_length; lia).
      rewrite (H i s Hi Hs'), Ev. reflexivity.
    - rewrite !nth_error_app2 by (rewrite ?firstn_length; lia). rewrite firstn_length, L2. f_equal. lia. }
  constructor; cbn [lifted q_x0 q_last_u q_p q_theta].
  - rewrite D1. exact Hx.
  - reflexivity.
  - intros i s Hi Hn. rewrite Ep in Hi, Lp. rewrite Eop in Hn.
    apply (W (m_p (o_model o)) mu (o_p_opt o) (q_p q) (q_p q2) (q_p q') i s); try assumption. apply (sh_p _ _ _ _ Hs).
  - intros el i s Hel Hi Hn. assert (B : (el <? N) = true) by (apply Nat.ltb_lt; exact Hel). rewrite B.
    rewrite Et in Hi. rewrite Eot in Hn. assert (Lt1 := Lt el Hel). rewrite Et in Lt1.
    apply (W (m_theta (o_model o)) par (o_theta_opt o) (q_theta q el) (q_theta q2 el) (q_theta q' el) i s); try assumption.
    + apply Ht. exact Hel.
    + apply (sh_theta _ _ _ _ Hs).
    + intros i0 s0 H0 H1. apply (D4 el i0 s0 Hel H0 H1).
Qed.

(** Proofs about the results of the augmented Lagrangian method. *)
From Coq Require Import String Lqa.
From Verif Require Import Base BaseProofs UtilModel UtilProofs ExprModel ExprProofs NlpModel NlpSpec SysModel
  SysSpec OcpModel OcpSpec LagModel DiscModel DiscSpec DiscProofs DataModel DataSpec
  ColSpec ColPolyProofs ColEvalProofs ColProofs ColElementProofs PlantProofs ResModel ResSpec ResProofs ResAccessProofs
  AugModel AugSpec AugUpdateProofs AugProofs AugLoopProofs AugRunProofs AugMoreProofs AlrModel AlrSpec.
Local Open Scope list_scope.
Local Open Scope nat_scope.

(** ** Vectors by columns *)

Lemma unvec_columns : forall degree n (v : list Q), degree <> 0 -> length v = n * degree ->
    exists m, unvec degree v = Ok m /\ length m = degree /\
      forall j, j < degree -> exists c, nth_error m j = Some c /\ length c = n /\
        forall i, i < n -> nth_error c i = nth_error v (j * n + i).
Proof.
  intros degree n v Hd L. unfold unvec. destruct (Nat.eqb_spec degree 0) as [|_]; [contradiction|].
  assert (E : length v / degree = n) by (rewrite L; apply Nat.div_mul, Hd).
  rewrite E, L, Nat.eqb_refl. eexists. split; [reflexivity|]. split; [rewrite map_length, seq_length; reflexivity|].
  intros j Hj. exists (firstn n (skipn (j * n) v)).
  assert (Hs : nth_error (seq 0 degree) j = Some j) by (rewrite (nth_error_nth' _ 0) by (rewrite seq_length; exact Hj); rewrite seq_nth by exact Hj; reflexivity).
  split; [apply (map_nth_error (fun d => firstn n (skipn (d * n) v)) _ _ Hs)|].
  split; [rewrite firstn_length, skipn_length, L; nia|].
  intros i Hi. assert (F : forall (A : Type) (l : list A) m i, i < m -> nth_error (firstn m l) i = nth_error l i).
  { intros A l. induction l as [|b l IH]; intros [|m] [|i'] Hl; try reflexivity; try lia. apply IH. lia. }
  rewrite F by exact Hi. clear. revert v. generalize (j * n) as b. induction b as [|b IH]; intros v; [reflexivity|].
  destruct v as [|x v]; [destruct i; reflexivity|]. cbn [skipn Nat.add nth_error]. apply IH.
Qed.

Lemma unvec_sized : forall degree v m, unvec degree v = Ok m -> degree <> 0 /\ length v = length v / degree * degree.
Proof.
  intros degree v m H. unfold unvec in H. destruct (Nat.eqb_spec degree 0) as [|Hd]; [discriminate|].
  destruct (Nat.eqb_spec (length v / degree * degree) (length v)) as [E|]; [|discriminate]. auto.
Qed.

Lemma seq_at : forall n i, i < n -> nth_error (seq 0 n) i = Some i.
Proof. intros n i H. rewrite (nth_error_nth' _ 0) by (rewrite seq_length; exact H). rewrite seq_nth by exact H. reflexivity. Qed.

Lemma res_map_of : forall (A B : Type) (f : A -> res B) l, (forall a, In a l -> exists b, f a = Ok b) -> exists bs, res_map f l = Ok bs.
Proof.
  intros A B f l. induction l as [|a l IH]; intros H; [exists []; reflexivity|].
  destruct (H a (or_introl eq_refl)) as [b Eb]. destruct IH as [bs Ebs]; [intros x Hx; apply H; right; exact Hx|].
  exists (b :: bs). cbn [res_map]. rewrite Eb, Ebs. reflexivity.
Qed.

Section ByPoint.
  Variables (opts : al_options) (k : method) (n : nat) (get : nat -> res (list Q)).
  Hypothesis Ag : agreeing opts k.

  Lemma by_point_at : forall l, by_point opts (k_degree k) get = Ok l ->
      length l = k_elements k /\
      forall el, el < k_elements k -> length (nth el l []) = k_degree k /\
        forall j v, j < k_degree k -> get el = Ok v -> length v = n * k_degree k ->
          exists c, nth_error (nth el l []) j = Some c /\ length c = n /\ forall i, i < n -> nth_error c i = nth_error v (j * n + i).
  Proof.
    intros l H. destruct Ag as [A1 A2]. unfold by_point in H. rewrite A1, A2 in H.
    pose proof (res_map_ok _ _ _ _ _ H) as HR. split; [rewrite <- (Forall2_len _ _ _ _ _ HR); apply seq_length|].
    intros el Hel. destruct (Forall2_nth _ _ _ _ _ _ _ HR (seq_at _ _ Hel)) as [cols [Ec Hc]].
    rewrite (nth_error_nth _ _ _ Ec). pose proof (res_map_ok _ _ _ _ _ Hc) as HC.
    split; [rewrite <- (Forall2_len _ _ _ _ _ HC); apply seq_length|].
    intros j v Hj Ev Lv. destruct (Forall2_nth _ _ _ _ _ _ _ HC (seq_at _ _ Hj)) as [c [E0 Hcj]]. exists c. split; [exact E0|].
    rewrite Ev in Hcj. destruct (unvec_columns (k_degree k) n v) as [m [Em [_ Hm]]]; [lia | exact Lv|].
    rewrite Em in Hcj. destruct (Hm j Hj) as [c' [Ec' [Lc Hi]]]. unfold at_index in Hcj. rewrite Ec' in Hcj. injection Hcj as <-. auto.
  Qed.

  Lemma by_point_ok : k_degree k <> 0 ->
      (forall el, el < k_elements k -> exists v, get el = Ok v /\ length v = n * k_degree k) ->
      exists l, by_point opts (k_degree k) get = Ok l.
  Proof.
    intros Hd H. unfold by_point. destruct Ag as [A1 A2]. rewrite A1, A2. apply res_map_of. intros el Hel. apply in_seq in Hel.
    apply res_map_of. intros j Hj. apply in_seq in Hj. destruct (H el) as [v [Ev Lv]]; [lia|]. rewrite Ev.
    destruct (unvec_columns (k_degree k) n v Hd Lv) as [m [Em [_ Hm]]]. rewrite Em.
    destruct (Hm j) as [c [Ec _]]; [lia|]. exists c. unfold at_index. rewrite Ec. reflexivity.
  Qed.
End ByPoint.

(** ** Times *)

Section Times.
  Variables (points : nat -> list Q) (opts : al_options) (k : method).
  Hypothesis Ag : agreeing opts k.
  Variables (dt : Q) (bps : list Q).
  Hypothesis Hdt : delta_t k = Ok dt.
  Hypothesis Hbps : breakpoints k = Ok bps.

  Lemma bps_nth : forall el, el < k_elements k -> exists b, nth_error bps el = Some b /\
      forall tau, (b + dt * tau == time_in k el tau)%Q.
  Proof.
    intros el Hel. destruct (breakpoints_ok _ _ Hbps) as [Hk ->].
    eexists. split; [apply map_nth_error, seq_at; lia|]. intros tau.
    unfold delta_t in Hdt. destruct (Nat.eqb_spec (k_elements k) 0) as [|_]; [contradiction|]. injection Hdt as <-.
    unfold time_in. ring.
  Qed.

  Lemma times_at : forall ts, time_interpolation_nu points opts dt bps = Ok ts ->
      length ts = k_elements k /\
      forall el, el < k_elements k -> length (nth el ts []) = k_degree k /\
        forall j tau, j < k_degree k -> nth_error (points (k_degree k)) j = Some tau ->
          exists t, nth_error (nth el ts []) j = Some t /\ (t == time_in k el tau)%Q.
  Proof.
    intros l H. destruct Ag as [A1 A2]. unfold time_interpolation_nu in H. rewrite A1, A2 in H.
    pose proof (res_map_ok _ _ _ _ _ H) as HR. split; [rewrite <- (Forall2_len _ _ _ _ _ HR); apply seq_length|].
    intros el Hel. destruct (Forall2_nth _ _ _ _ _ _ _ HR (seq_at _ _ Hel)) as [cols [Ec Hc]].
    rewrite (nth_error_nth _ _ _ Ec). pose proof (res_map_ok _ _ _ _ _ Hc) as HC.
    split; [rewrite <- (Forall2_len _ _ _ _ _ HC); apply seq_length|].
    intros j tau Hj Ht. destruct (Forall2_nth _ _ _ _ _ _ _ HC (seq_at _ _ Hj)) as [t [E0 Hcj]]. exists t. split; [exact E0|].
    destruct (bps_nth el Hel) as [b [Eb Vb]]. unfold at_index in Hcj. rewrite Eb, Ht in Hcj. injection Hcj as <-. apply Vb.
  Qed.

  Lemma times_ok : length (points (k_degree k)) = k_degree k -> exists ts, time_interpolation_nu points opts dt bps = Ok ts.
  Proof.
    intros Hp. unfold time_interpolation_nu. destruct Ag as [A1 A2]. rewrite A1, A2. apply res_map_of. intros el Hel. apply in_seq in Hel.
    apply res_map_of. intros j Hj. apply in_seq in Hj. destruct (bps_nth el) as [b [Eb _]]; [lia|].
    unfold at_index. rewrite Eb. destruct (nth_error (points (k_degree k)) j) as [c|] eqn:Ec; [|apply nth_error_None in Ec; lia].
    eexists. reflexivity.
  Qed.
End Times.

(** ** The result *)

Lemma pointwise_get : forall k n l, pointwise k n l -> forall el, el < k_elements k ->
    exists v, violation_of l el = Ok v /\ length v = n * k_degree k /\
      forall j i, j < k_degree k -> i < n -> nth_error v (j * n + i) = kept l el j i.
Proof.
  intros k n l [Ll Fl] el Hel. unfold violation_of, at_index.
  destruct (nth_error l el) as [cols|] eqn:Ec; [|apply nth_error_None in Ec; lia].
  rewrite Forall_forall in Fl. destruct (Fl cols (nth_error_In _ _ Ec)) as [L1 F1].
  exists (concat cols). split; [reflexivity|]. split; [rewrite (concat_rows_length _ n _ F1), L1; lia|].
  intros j i Hj Hi. unfold kept. rewrite (nth_error_nth _ _ _ Ec).
  destruct (nth_error cols j) as [c|] eqn:Ej; [|apply nth_error_None in Ej; lia].
  apply (concat_block _ n _ j i c F1 Hi Ej).
Qed.

Section Result.
  Variables (points : nat -> list Q) (opts : al_options).
  Variable evaluated : traj Q -> arguments -> list (list Q) -> res (list (list (list Q))).
  Variables (sch : scheme) (k : method).
  Variables (names : list string * list string * list string * list string) (x_cost : option (list sym)).
  Hypothesis Ag : agreeing opts k.
  Hypothesis Hp : length (points (k_degree k)) = k_degree k.

  Let result := al_result points opts evaluated sch k names x_cost.

  Lemma result_inv : forall s raw x_0 args args' r e,
      result s raw x_0 args = (args', Ok (r, e)) ->
      exists r0 nu alg eq dt bps ts,
        create_optimization_result points evaluated sch k names x_cost raw x_0 args = (args', Ok r0) /\
        delta_t k = Ok dt /\ breakpoints k = Ok bps /\
        by_point opts (k_degree k) (nu_of s) = Ok nu /\ time_interpolation_nu points opts dt bps = Ok ts /\
        by_point opts (k_degree k) (violation_of (st_alg s)) = Ok alg /\
        by_point opts (k_degree k) (violation_of (st_eq s)) = Ok eq /\ e = st_last s /\
        r = with_other [("nu"%string, (nu, ts)); ("alg_violation"%string, (alg, ts)); ("eq_violation"%string, (eq, ts))] r0.
  Proof.
    intros s raw x_0 args args' r e H. unfold result, al_result in H.
    apply cbind_back in H. destruct H as [a1 [r0 [H0 H]]].
    apply cbind_back in H. destruct H as [a2 [nu [H1 H]]]. unfold cres in H1. injection H1 as <- H1.
    apply cbind_back in H. destruct H as [a2 [dt [H2 H]]]. unfold cres in H2. injection H2 as <- H2.
    apply cbind_back in H. destruct H as [a2 [bps [H3 H]]]. unfold cres in H3. injection H3 as <- H3.
    apply cbind_back in H. destruct H as [a2 [ts [H4 H]]]. unfold cres in H4. injection H4 as <- H4.
    apply cbind_back in H. destruct H as [a2 [alg [H5 H]]]. unfold cres in H5. injection H5 as <- H5.
    apply cbind_back in H. destruct H as [a2 [eq [H6 H]]]. unfold cres in H6. injection H6 as <- H6.
    unfold cret in H. assert (E : args' = a1) by congruence. assert (Er : (r, e) = (with_other [("nu"%string, (nu, ts)); ("alg_violation"%string, (alg, ts)); ("eq_violation"%string, (eq, ts))] r0, st_last s)) by congruence.
    subst args'. exists r0, nu, alg, eq, dt, bps, ts.
    assert (e = st_last s) by congruence. assert (r = with_other [("nu"%string, (nu, ts)); ("alg_violation"%string, (alg, ts)); ("eq_violation"%string, (eq, ts))] r0) by congruence.
    repeat (split; [assumption|]). assumption.
  Qed.

  Lemma result_holds : forall s raw x_0 args args' r e n n_alg n_eq,
      result s raw x_0 args = (args', Ok (r, e)) -> reportable k n n_alg n_eq s ->
      e = st_last s /\ map fst (w_other r) = additions /\
      (forall el j i, el < k_elements k -> j < k_degree k ->
         (i < n -> stored r "nu" el j i = multiplier (st_nu s) n el j i) /\
         (i < n_alg -> stored r "alg_violation" el j i = kept (st_alg s) el j i) /\
         (i < n_eq -> stored r "eq_violation" el j i = kept (st_eq s) el j i)) /\
      (forall name el j tau, In name additions -> el < k_elements k -> nth_error (points (k_degree k)) j = Some tau ->
         exists t, stored_time r name el j = Some t /\ (t == time_in k el tau)%Q).
  Proof.
    intros s raw x_0 args args' r e n n_alg n_eq H [R1 R2 R3].
    destruct (result_inv _ _ _ _ _ _ _ H) as [r0 [nu [alg [eq [dt [bps [ts [H0 [Hdt [Hb [H1 [H2 [H3 [H4 [-> ->]]]]]]]]]]]]]]].
    split; [reflexivity|]. split; [reflexivity|]. split.
    - intros el j i Hel Hj. split; [|split]; intros Hi; unfold stored; cbn [w_other with_other dget String.eqb Ascii.eqb Bool.eqb].
      + destruct (R1 el Hel) as [v [Ev Lv]]. destruct (by_point_at opts k n _ Ag nu H1) as [_ P]. destruct (P el Hel) as [_ P'].
        assert (Eg : nu_of s el = Ok v) by (unfold nu_of; rewrite Ev; reflexivity).
        destruct (P' j v Hj Eg Lv) as [c [Ec [_ Vc]]]. rewrite Ec. unfold multiplier. rewrite Ev. apply Vc, Hi.
      + destruct (pointwise_get k n_alg _ R2 el Hel) as [v [Ev [Lv Vv]]]. destruct (by_point_at opts k n_alg _ Ag alg H3) as [_ P]. destruct (P el Hel) as [_ P'].
        destruct (P' j v Hj Ev Lv) as [c [Ec [_ Vc]]]. rewrite Ec, (Vc i Hi). apply Vv; assumption.
      + destruct (pointwise_get k n_eq _ R3 el Hel) as [v [Ev [Lv Vv]]]. destruct (by_point_at opts k n_eq _ Ag eq H4) as [_ P]. destruct (P el Hel) as [_ P'].
        destruct (P' j v Hj Ev Lv) as [c [Ec [_ Vc]]]. rewrite Ec, (Vc i Hi). apply Vv; assumption.
    - intros name el j tau Hn Hel Ht.
      assert (Hj : j < k_degree k) by (rewrite <- Hp; apply nth_error_Some; congruence).
      destruct (times_at points opts k Ag dt bps Hdt Hb ts H2) as [_ P]. destruct (P el Hel) as [_ P']. destruct (P' j tau Hj Ht) as [t [Et Vt]].
      exists t. split; [|exact Vt]. destruct Hn as [<-|[<-|[<-|[]]]]; exact Et.
  Qed.

  Lemma result_complete : forall s raw x_0 args args' r e n n_alg n_eq r0,
      result s raw x_0 args = (args', Ok (r, e)) -> reportable k n n_alg n_eq s -> k_degree k <> 0 ->
      create_optimization_result points evaluated sch k names x_cost raw x_0 args = (args', Ok r0) -> w_elements r0 = k_elements k ->
      complete r0 -> complete r.
  Proof.
    intros s raw x_0 args args' r e n n_alg n_eq r0 H [R1 R2 R3] Hd H0' He [C1 C2 C3 C4 C5 C6].
    destruct (result_inv _ _ _ _ _ _ _ H) as [r1 [nu [alg [eq [dt [bps [ts [H0 [Hdt [Hb [H1 [H2 [H3 [H4 [_ Er]]]]]]]]]]]]]]].
    assert (r1 = r0) by congruence. subst r1. rewrite Er. clear Er H H0'.
    destruct (breakpoints_ok _ _ Hb) as [Hk _].
    destruct (times_at points opts k Ag dt bps Hdt Hb ts H2) as [Lt Pt].
    assert (Ser : forall m get l, by_point opts (k_degree k) get = Ok l ->
              (forall el, el < k_elements k -> exists v, get el = Ok v /\ length v = m * k_degree k) -> series (k_elements k) m ts l).
    { intros m get l Hl Hg. destruct (by_point_at opts k m get Ag l Hl) as [Ll Pl]. split; [lia|]. split; [lia|]. intros el Hel.
      destruct (Pl el Hel) as [L1 P1]. destruct (Pt el Hel) as [L2 _]. split; [intros E; rewrite E in L1; cbn in L1; congruence|]. split; [congruence|].
      apply Forall_forall. intros c Hc. apply In_nth_error in Hc. destruct Hc as [j Hj].
      assert (Hj' : j < k_degree k) by (rewrite <- L1; apply nth_error_Some; congruence).
      destruct (Hg el Hel) as [v [Ev Lv]]. destruct (P1 j v Hj' Ev Lv) as [c' [Ec [Lc _]]]. rewrite Hj in Ec. injection Ec as <-. exact Lc. }
    constructor; cbn [with_other w_x_names w_y_names w_u_names w_theta_names w_elements w_x w_y w_u w_x_time w_y_time w_u_time w_t_f w_breakpoints w_theta_opt w_other].
    - exact C1.
    - exact C2.
    - exact C3.
    - exact C4.
    - intros key v t Hin. rewrite He. split; [lia|].
      destruct Hin as [E|[E|[E|[]]]]; injection E as <- <- <-; eexists.
      + apply (Ser n _ _ H1). intros el Hel. destruct (R1 el Hel) as [v [Ev Lv]]. exists v. unfold nu_of. rewrite Ev. auto.
      + apply (Ser n_alg _ _ H3). intros el Hel. destruct (pointwise_get k n_alg _ R2 el Hel) as [v [Ev [Lv _]]]. exists v. auto.
      + apply (Ser n_eq _ _ H4). intros el Hel. destruct (pointwise_get k n_eq _ R3 el Hel) as [v [Ev [Lv _]]]. exists v. auto.
    - repeat constructor; simpl; intuition discriminate.
  Qed.

  Lemma result_exists : forall s raw x_0 args args' r0 n n_alg n_eq,
      create_optimization_result points evaluated sch k names x_cost raw x_0 args = (args', Ok r0) ->
      reportable k n n_alg n_eq s -> k_degree k <> 0 -> k_elements k <> 0 ->
      exists r, result s raw x_0 args = (args', Ok (r, st_last s)) /\ with_other [] r = with_other [] r0.
  Proof.
    intros s raw x_0 args args' r0 n n_alg n_eq H0 [R1 R2 R3] Hd Hk.
    assert (Hdt : exists dt, delta_t k = Ok dt) by (unfold delta_t; destruct (Nat.eqb_spec (k_elements k) 0); [contradiction | eexists; reflexivity]).
    assert (Hb : exists bps, breakpoints k = Ok bps) by (destruct Hdt as [dt Hdt]; unfold breakpoints; rewrite Hdt; eexists; reflexivity).
    destruct Hdt as [dt Hdt]. destruct Hb as [bps Hb].
    destruct (by_point_ok opts k n (nu_of s) Ag Hd) as [nu H1].
    { intros el Hel. destruct (R1 el Hel) as [v [Ev Lv]]. exists v. unfold nu_of. rewrite Ev. auto. }
    destruct (by_point_ok opts k n_alg (violation_of (st_alg s)) Ag Hd) as [alg H3].
    { intros el Hel. destruct (pointwise_get k n_alg _ R2 el Hel) as [v [Ev [Lv _]]]. exists v. auto. }
    destruct (by_point_ok opts k n_eq (violation_of (st_eq s)) Ag Hd) as [eq H4].
    { intros el Hel. destruct (pointwise_get k n_eq _ R3 el Hel) as [v [Ev [Lv _]]]. exists v. auto. }
    destruct (times_ok points opts k Ag dt bps Hdt Hb Hp) as [ts H2].
    exists (with_other [("nu"%string, (nu, ts)); ("alg_violation"%string, (alg, ts)); ("eq_violation"%string, (eq, ts))] r0).
    split; [|reflexivity]. unfold result, al_result.
    unfold cbind at 1. rewrite H0. unfold cbind at 1, cres at 1. rewrite H1. unfold cbind at 1, cres at 1. rewrite Hdt.
    unfold cbind at 1, cres at 1. rewrite Hb. unfold cbind at 1, cres at 1. rewrite H2. unfold cbind at 1, cres at 1. rewrite H3.
    unfold cbind at 1, cres at 1. rewrite H4. reflexivity.
  Qed.
End Result.

(** Proofs about the results of the augmented Lagrangian method: reports, data sets and
    runs without updates. *)
From Coq Require Import String Lqa.
From Verif Require Import Base BaseProofs UtilModel UtilProofs ExprModel SysModel
  OcpModel OcpSpec DiscModel DiscSpec DiscProofs DataModel DataSpec
  ColSpec ColPolyProofs ColEvalProofs ColProofs ColElementProofs PlantProofs ResModel ResSpec ResProofs ResAccessProofs
  AugModel AugSpec AugUpdateProofs AugProofs AugLoopProofs AugRunProofs AugMoreProofs AugPondProofs AlrModel AlrSpec AlrProofs AlrRunProofs.
Local Open Scope list_scope.
Local Open Scope nat_scope.

Lemma alike_of : forall r r0, with_other [] r = with_other [] r0 -> alike r r0.
Proof.
  intros r r0 H. constructor; repeat split; match goal with |- ?f r = ?f r0 => exact (f_equal f H) end.
Qed.

Section Created.
  Variables (points : nat -> list Q) (opts : al_options).
  Variable evaluated : traj Q -> arguments -> list (list Q) -> res (list (list (list Q))).
  Variables (sch : scheme) (k : method).
  Variables (names : list string * list string * list string * list string) (x_cost : option (list sym)).

  Lemma al_created : forall s raw x_0 args args' r0 n n_alg n_eq,
      agreeing opts k -> length (points (k_degree k)) = k_degree k -> k_degree k <> 0 -> k_elements k <> 0 ->
      reportable k n n_alg n_eq s ->
      create_optimization_result points evaluated sch k names x_cost raw x_0 args = (args', Ok r0) ->
      exists r, al_result points opts evaluated sch k names x_cost s raw x_0 args = (args', Ok (r, st_last s)) /\
        alike r r0 /\ map fst (w_other r) = additions /\
        (forall el j i, el < k_elements k -> j < k_degree k ->
           (i < n -> stored r "nu" el j i = multiplier (st_nu s) n el j i) /\
           (i < n_alg -> stored r "alg_violation" el j i = kept (st_alg s) el j i) /\
           (i < n_eq -> stored r "eq_violation" el j i = kept (st_eq s) el j i)) /\
        (forall name el j tau, In name additions -> el < k_elements k -> nth_error (points (k_degree k)) j = Some tau ->
           exists t, stored_time r name el j = Some t /\ (t == time_in k el tau)%Q).
  Proof.
    intros s raw x_0 args args' r0 n n_alg n_eq Ag Hp Hd Hk R H0.
    destruct (result_exists points opts evaluated sch k names x_cost Ag Hp s raw x_0 args args' r0 n n_alg n_eq H0 R Hd Hk) as [r [Hr Ha]].
    destruct (result_holds points opts evaluated sch k names x_cost Ag Hp _ _ _ _ _ _ _ _ _ _ Hr R) as [_ [H1 [H2 H3]]].
    exists r. split; [exact Hr|]. split; [apply alike_of, Ha|]. auto.
  Qed.

  Lemma al_dataset : forall default s raw x_0 args args' r0 r e n n_alg n_eq,
      agreeing opts k -> length (points (k_degree k)) = k_degree k -> k_degree k <> 0 ->
      reportable k n n_alg n_eq s ->
      create_optimization_result points evaluated sch k names x_cost raw x_0 args = (args', Ok r0) ->
      complete r0 -> w_elements r0 = k_elements k ->
      al_result points opts evaluated sch k names x_cost s raw x_0 args = (args', Ok (r, e)) ->
      exists d, to_dataset default r = Ok d /\ consistent d /\ dkeys d = reserved ++ additions /\
        (forall name values times, In (name, (values, times)) (w_other r) -> contents name d = Some (samples (k_elements k) times values)) /\
        forall key l, In key reserved -> expected r0 key l -> contents key d = Some l.
  Proof.
    intros default s raw x_0 args args' r0 r e n n_alg n_eq Ag Hp Hd R H0 Cr He Hr.
    pose proof (result_complete points opts evaluated sch k names x_cost Ag Hp _ _ _ _ _ _ _ _ _ _ _ Hr R Hd H0 He Cr) as Cc.
    destruct (result_holds points opts evaluated sch k names x_cost Ag Hp _ _ _ _ _ _ _ _ _ _ Hr R) as [_ [H1 _]].
    destruct (result_inv points opts evaluated sch k names x_cost _ _ _ _ _ _ _ Hr) as [r1 [nu [alg [eq [dt [bps [ts [H0' [_ [_ [_ [_ [_ [_ [_ Er]]]]]]]]]]]]]]].
    assert (r1 = r0) by congruence. subst r1.
    destruct (dataset_contents default r Cc) as [d [E [Co [K [Ex _]]]]]. exists d. split; [exact E|]. split; [exact Co|].
    split; [rewrite K, H1; reflexivity|]. assert (Wk : w_elements r = k_elements k) by (rewrite Er; exact He). split.
    - intros name v t Hin. apply Ex. unfold expected. do 4 right. exists v, t. rewrite Wk. auto.
    - intros key l Hkey Hex. apply Ex. rewrite Er. unfold expected in *.
      cbn [with_other w_x_names w_y_names w_u_names w_theta_names w_elements w_x w_y w_u w_x_time w_y_time w_u_time w_t_f w_breakpoints w_theta_opt w_other].
      destruct Hex as [X|[X|[X|[X|[v [t [Hin _]]]]]]]; [tauto | tauto | tauto | tauto|].
      exfalso. destruct Cr as [_ _ _ _ _ Nd]. apply (in_map fst) in Hin. cbn [fst] in Hin.
      clear - Nd Hin Hkey. induction reserved as [|y l' IH]; [contradiction|]. cbn [app] in Nd. inversion Nd; subst.
      destruct Hkey as [-> | Hkey]; [apply H1, in_app_iff; right; exact Hin | apply IH; assumption].
  Qed.
End Created.

(** ** Without updates *)

Lemma start_pointwise : forall opts k n, agreeing opts k ->
    pointwise k n (repeat (repeat (repeat 0%Q n) (al_degree opts)) (al_elements opts)).
Proof.
  intros opts k n [-> ->]. split; [apply repeat_length|]. apply Forall_forall. intros cols Hc. apply repeat_spec in Hc. subst cols.
  split; [apply repeat_length|]. apply Forall_forall. intros c Hc. apply repeat_spec in Hc. subst c. apply repeat_length.
Qed.

Lemma unvec_zero : forall degree v m, unvec degree v = Ok m -> Forall (fun x => x = 0%Q) v ->
    forall c, In c m -> Forall (fun x => x = 0%Q) c.
Proof.
  intros degree v m H Hz c Hc. unfold unvec in H. destruct (degree =? 0); [discriminate|]. destruct (_ =? _); [|discriminate].
  injection H as <-. apply in_map_iff in Hc. destruct Hc as [d [<- _]]. rewrite Forall_forall in *. intros x Hx. apply Hz.
  assert (Sub : forall (A : Type) n (l : list A) y, In y (firstn n l) -> In y l).
  { intros A n l y Hy. rewrite <- (firstn_skipn n l). apply in_app_iff. left. exact Hy. }
  assert (Sub' : forall (A : Type) n (l : list A) y, In y (skipn n l) -> In y l).
  { intros A n l y Hy. rewrite <- (firstn_skipn n l). apply in_app_iff. right. exact Hy. }
  apply (Sub' _ (d * (length v / degree))), (Sub _ (length v / degree)), Hx.
Qed.

Lemma by_point_zero : forall opts degree get l, by_point opts degree get = Ok l ->
    (forall el v, get el = Ok v -> Forall (fun x => x = 0%Q) v) ->
    forall el j c i v, nth_error (nth el l []) j = Some c -> nth_error c i = Some v -> v = 0%Q.
Proof.
  intros opts degree get l H Hz el j c i v Hc Hv. unfold by_point in H. pose proof (res_map_ok _ _ _ _ _ H) as HR.
  destruct (nth_error l el) as [cols|] eqn:Ec.
  - rewrite (nth_error_nth _ _ _ Ec) in Hc. destruct (Forall2_nth' _ _ _ _ _ _ _ HR Ec) as [el' [_ Hcols]].
    pose proof (res_map_ok _ _ _ _ _ Hcols) as HC. destruct (Forall2_nth' _ _ _ _ _ _ _ HC Hc) as [d [_ Hd]].
    destruct (get el') as [w|] eqn:Eg; [|discriminate]. destruct (unvec degree w) as [m|] eqn:Em; [|discriminate].
    unfold at_index in Hd. destruct (nth_error m d) as [c'|] eqn:En; [|discriminate]. injection Hd as ->.
    pose proof (unvec_zero _ _ _ Em (Hz _ _ Eg) c (nth_error_In _ _ En)) as Z. rewrite Forall_forall in Z. apply Z, (nth_error_In _ _ Hv).
  - apply nth_error_None in Ec. rewrite nth_overflow in Hc by exact Ec. destruct j; discriminate.
Qed.

Lemma violation_zero : forall n d e el v, violation_of (repeat (repeat (repeat 0%Q n) d) e) el = Ok v -> Forall (fun x => x = 0%Q) v.
Proof.
  intros n d e el v H. unfold violation_of, at_index in H. destruct (nth_error _ el) as [cols|] eqn:E; [|discriminate]. injection H as <-.
  apply nth_error_In, repeat_spec in E. subst cols. apply Forall_forall. intros x Hx. apply in_concat in Hx. destruct Hx as [c [Hc Hx]].
  apply repeat_spec in Hc. subst c. apply repeat_spec in Hx. exact Hx.
Qed.

Lemma zeros_at : forall opts k n, agreeing opts k ->
    forall l, by_point opts (k_degree k) (violation_of (repeat (repeat (repeat 0%Q n) (al_degree opts)) (al_elements opts))) = Ok l ->
    forall el j i, el < k_elements k -> j < k_degree k ->
    match nth_error (nth el l []) j with Some c => nth_error c i | None => None end = if i <? n then Some 0%Q else None.
Proof.
  intros opts k n Ag l H el j i Hel Hj. destruct (by_point_at opts k n _ Ag l H) as [_ B]. destruct (B el Hel) as [_ B'].
  destruct (pointwise_get k n _ (start_pointwise opts k n Ag) el Hel) as [v [Ev [Lv _]]].
  destruct (B' j v Hj Ev Lv) as [c [Ec [Lc _]]]. rewrite Ec. destruct (Nat.ltb_spec i n) as [Hi|Hi].
  - destruct (nth_error c i) as [x|] eqn:Ei; [|apply nth_error_None in Ei; lia].
    f_equal. apply (by_point_zero _ _ _ _ H (violation_zero _ _ _) el j c i x Ec Ei).
  - apply nth_error_None. lia.
Qed.

Lemma no_updates : forall points opts evaluated sch k names x_cost F f ocp_solve p th guess x_0 n_alg n_eq s st r e,
    st_last s = None ->
    al_solve points opts evaluated sch k names x_cost F f true ocp_solve p th guess x_0 (start_violations opts n_alg n_eq s, []) = (st, Ok (r, e)) ->
    e = None /\
    (forall name el j i v, In name ["alg_violation"; "eq_violation"]%string -> stored r name el j i = Some v -> v = 0%Q) /\
    (agreeing opts k -> forall el j i, el < k_elements k -> j < k_degree k ->
       stored r "alg_violation" el j i = (if i <? n_alg then Some 0%Q else None) /\
       stored r "eq_violation" el j i = (if i <? n_eq then Some 0%Q else None)).
Proof.
  intros points opts evaluated sch k names x_cost F f ocp_solve p th guess x_0 n_alg n_eq s [s' calls] r e Hl H. unfold al_solve in H.
  apply cbind_back in H. destruct H as [[s1 calls1] [v [Hrun H]]]. cbn [fst] in H.
  destruct (al_result _ _ _ _ _ _ _ _ _ _ _) as [args' out] eqn:Eres. cbn [snd] in H. injection H as <- <- ->.
  unfold call_solver in Hrun. destruct (Nat.eq_dec (al_max_iter opts) 0) as [Z|Z]; [rewrite Z in Hrun; discriminate|].
  destruct (iterations_fixed _ _ _ _ _ _ _ _ _ _ _ _ _ _ Hrun Z) as [new [theta_k [_ [_ [Es _]]]]]. cbn [fst] in Es.
  assert (A : st_alg s1 = st_alg (start_violations opts n_alg n_eq s) /\ st_eq s1 = st_eq (start_violations opts n_alg n_eq s) /\ st_last s1 = st_last s).
  { rewrite Es. unfold take_nu_tilde. destruct (st_nu_tilde _); repeat split; reflexivity. }
  destruct A as [A1 [A2 A3]].
  destruct (result_inv points opts evaluated sch k names x_cost _ _ _ _ _ _ _ Eres) as [r0 [nu [alg [eq [dt [bps [ts [_ [_ [_ [_ [_ [H3 [H4 [-> Er]]]]]]]]]]]]]]].
  split; [rewrite A3; exact Hl|]. split.
  2:{ intros Ag el j i Hel Hj. rewrite Er. unfold stored. cbn [w_other with_other dget String.eqb Ascii.eqb Bool.eqb].
      rewrite A1 in H3. rewrite A2 in H4. split; [apply (zeros_at opts k n_alg Ag _ H3 el j i Hel Hj) | apply (zeros_at opts k n_eq Ag _ H4 el j i Hel Hj)]. }
  intros name el j i w Hn Hs. rewrite Er in Hs. unfold stored in Hs.
  destruct Hn as [<-|[<-|[]]]; cbn [w_other with_other dget String.eqb Ascii.eqb Bool.eqb] in Hs.
  - destruct (nth_error (nth el alg []) j) as [c|] eqn:Ec; [|discriminate]. rewrite A1 in H3.
    apply (by_point_zero _ _ _ _ H3 (violation_zero _ _ _) el j c i w Ec Hs).
  - destruct (nth_error (nth el eq []) j) as [c|] eqn:Ec; [|discriminate]. rewrite A2 in H4.
    apply (by_point_zero _ _ _ _ H4 (violation_zero _ _ _) el j c i w Ec Hs).
Qed.

(** ** Parameters *)

Lemma dset_same : forall (d : dict nat (list Q)) el v, dget Nat.eqb el d = Some v -> dset Nat.eqb el v d = d.
Proof.
  induction d as [|[key w] d IH]; intros el v H; [discriminate|]. cbn [dget dset] in *. destruct (Nat.eqb_spec el key) as [->|_].
  - injection H as ->. reflexivity.
  - rewrite (IH el v H). reflexivity.
Qed.
Lemma write_nothing : forall v w u, write v [] w = Ok u -> u = v.
Proof. intros v w u H. unfold write in H. cbn in H. injection H as <-. reflexivity. Qed.

Lemma created_parameters : forall points evaluated sch k names x_cost raw x_0 args args' r,
    o_p_opt (k_problem k) = [] -> o_theta_opt (k_problem k) = [] ->
    create_optimization_result points evaluated sch k names x_cost raw x_0 args = (args', Ok r) ->
    w_p r = fst args /\ w_theta r = snd args /\ w_x_0 r = x_0.
Proof.
  intros points evaluated sch k names x_cost raw x_0 args args' r Hp Ht H. unfold create_optimization_result in H.
  apply cbind_back in H. destruct H as [b1 [dt1 [E1 H]]]. apply cbind_back in H. destruct H as [b2 [bps1 [E2 H]]].
  apply cbind_back in H. destruct H as [b3 [rr [E3 H]]].
  apply cbind_back in H. destruct H as [b4 [[] [E4 H]]]. apply cbind_back in H. destruct H as [b5 [[] [E5 H]]].
  apply cbind_back in H. destruct H as [b6 [u0 [E6 H]]]. apply cbind_back in H. destruct H as [b7 [u1 [E7 H]]].
  apply cbind_back in H. destruct H as [b8 [cost [E8 H]]].
  unfold cres in E1, E2, E3, E6, E8. injection E1 as <- _. injection E2 as <- _. injection E3 as <- _. injection E6 as <- _. injection E8 as <- _.
  assert (B7 : b7 = b5).
  { destruct u0; [injection E7 as <- _; reflexivity | unfold cret in E7; injection E7 as <- _; reflexivity]. }
  subst b7. assert (B4 : b4 = args).
  { unfold write_p, cset in E4. replace (get_p_opt_indices (k_problem k)) with (@nil nat) in E4.
    - destruct (write (fst args) [] (r_p rr)) as [w|] eqn:Ew; [|discriminate]. injection E4 as <-. apply write_nothing in Ew. subst w. destruct args; reflexivity.
    - unfold get_p_opt_indices. rewrite Hp. reflexivity. }
  subst b4. assert (B5 : b5 = args).
  { clear -E5 Ht. assert (G : forall els a, run_all (write_theta k (r_theta rr)) els a = (b5, Ok tt) -> b5 = a).
    { induction els as [|el els IH]; intros a H; cbn [run_all] in H; [injection H as <-; reflexivity|].
      destruct (write_theta k (r_theta rr) el a) as [a1 [[]|]] eqn:Ea; [|discriminate]. rewrite (IH _ H). clear H IH.
      unfold write_theta, cset in Ea. replace (get_theta_opt_indices (k_problem k)) with (@nil nat) in Ea
        by (unfold get_theta_opt_indices; rewrite Ht; reflexivity).
      destruct (dget Nat.eqb el (snd a)) as [v|] eqn:Ed; [|discriminate]. destruct (at_index _ el _) as [w|]; [|discriminate].
      destruct (write v [] w) as [u|] eqn:Ew; [|discriminate]. injection Ea as <-. apply write_nothing in Ew. subst u.
      rewrite (dset_same _ _ _ Ed). destruct a; reflexivity. }
    apply (G _ _ E5). }
  subst b5. injection H as _ <-. cbn [w_p w_theta w_x_0]. auto.
Qed.

Lemma solved_parameters : forall points opts evaluated sch k names x_cost F f ocp_solve p th guess x_0 s st r e,
    o_p_opt (k_problem k) = [] -> o_theta_opt (k_problem k) = [] ->
    al_solve points opts evaluated sch k names x_cost F f false ocp_solve (Some p) (Some th) guess x_0 (s, []) = (st, Ok (r, e)) ->
    exists c, hd_error (snd st) = Some c /\ w_p r = sc_p c /\ w_theta r = sc_theta c /\ w_x_0 r = x_0.
Proof.
  intros points opts evaluated sch k names x_cost F f ocp_solve p th guess x_0 s st r e Hp Ht H. unfold al_solve in H.
  apply cbind_back in H. destruct H as [st1 [v [Hrun H]]].
  destruct (al_result _ _ _ _ _ _ _ _ _ _ _) as [args' out] eqn:Eres. cbn [snd] in H. injection H as <- ->.
  destruct (run_returned _ _ _ _ _ _ _ _ _ _ _ Hrun) as [c [Ec [Ep Et]]]. exists c. split; [exact Ec|].
  destruct (result_inv points opts evaluated sch k names x_cost _ _ _ _ _ _ _ Eres) as [r0 [nu [alg [eq [dt [bps [ts [H0 [_ [_ [_ [_ [_ [_ [_ Er]]]]]]]]]]]]]]].
  destruct (created_parameters _ _ _ _ _ _ _ _ _ _ _ Hp Ht H0) as [P1 [P2 P3]]. rewrite Er. cbn [with_other w_p w_theta w_x_0].
  cbn [fst snd] in P1, P2. rewrite P1, P2, P3. auto.
Qed.

(** ** The pond *)

Lemma pond_updated : shown (pond_result false false "bounded-increase" 2) =
    ([("nu"%string, ([[[(-1)%Q]; [(-1)%Q]]; [[(-1)%Q]; [(-1)%Q]]], [[(2 # 3)%Q; 2%Q]; [(8 # 3)%Q; 4%Q]]));
      ("alg_violation"%string, ([[[(1 # 4)%Q]; [(1 # 4)%Q]]; [[(1 # 4)%Q]; [(1 # 4)%Q]]], [[(2 # 3)%Q; 2%Q]; [(8 # 3)%Q; 4%Q]]));
      ("eq_violation"%string, ([[[]; []]; [[]; []]], [[(2 # 3)%Q; 2%Q]; [(8 # 3)%Q; 4%Q]]))], Some [(1 # 4)%Q]).
Proof. vm_compute. reflexivity. Qed.
Lemma pond_not_updated : shown (pond_result true false "bounded-increase" 1) =
    ([("nu"%string, ([[[0%Q]; [0%Q]]; [[0%Q]; [0%Q]]], [[(2 # 3)%Q; 2%Q]; [(8 # 3)%Q; 4%Q]]));
      ("alg_violation"%string, ([[[0%Q]; [0%Q]]; [[0%Q]; [0%Q]]], [[(2 # 3)%Q; 2%Q]; [(8 # 3)%Q; 4%Q]]));
      ("eq_violation"%string, ([[[]; []]; [[]; []]], [[(2 # 3)%Q; 2%Q]; [(8 # 3)%Q; 4%Q]]))], None) /\
    shown (pond_result false false "bounded-increase" 1) =
    ([("nu"%string, ([[[0%Q]; [0%Q]]; [[0%Q]; [0%Q]]], [[(2 # 3)%Q; 2%Q]; [(8 # 3)%Q; 4%Q]]));
      ("alg_violation"%string, ([[[(-1)%Q]; [(-1)%Q]]; [[(-1)%Q]; [(-1)%Q]]], [[(2 # 3)%Q; 2%Q]; [(8 # 3)%Q; 4%Q]]));
      ("eq_violation"%string, ([[[]; []]; [[]; []]], [[(2 # 3)%Q; 2%Q]; [(8 # 3)%Q; 4%Q]]))], Some [1%Q]).
Proof. split; vm_compute; reflexivity. Qed.
Lemma pond_in_place : exists calls r e c, pond_result false true "primal" 2 = Ok (calls, (r, e)) /\ hd_error calls = Some c /\
    match sc_theta c with (0, v) :: _ => map Qred v | _ => [] end = [(-1)%Q; (-1)%Q] /\
    option_map Qred (stored r "nu" 0 0 0) = Some (-3 # 4)%Q /\ option_map Qred (stored r "nu" 0 1 0) = Some (-1)%Q.
Proof.
  destruct (pond_result false true "primal" 2) as [[calls [r e]]|] eqn:E; [|vm_compute in E; discriminate].
  exists calls, r, e. assert (T : match pond_result false true "primal" 2 with
      | Ok (calls, (r, e)) =>
          option_map (fun c => (match sc_theta c with (0, v) :: _ => map Qred v | _ => [] end,
            option_map Qred (stored r "nu" 0 0 0), option_map Qred (stored r "nu" 0 1 0))) (hd_error calls)
      | Raise _ => None end = Some ([(-1)%Q; (-1)%Q], Some (-3 # 4)%Q, Some (-1)%Q)) by (vm_compute; reflexivity).
  rewrite E in T. destruct (hd_error calls) as [c|]; [|discriminate]. exists c. cbn [option_map] in T. injection T as T1 T2 T3. auto.
Qed.

(** Properties C49, C50 and C76: the distributed method. *)
From Coq Require Import String Permutation Lqa Lia.
From Verif Require Import Base UtilModel ExprModel SysModel NlpModel NlpSpec SimModel DiscModel ResModel NetModel.
From Verif Require Import DalModel DalSpec DalProofs DalLoopProofs DalUpdateProofs DalMoreProofs.
Local Open Scope list_scope.

(** * C49: sweeps *)

(** In a serial sweep every node is solved once, from its method's state and its last
    point, with the results of this sweep of the nodes before it and the last results of
    the others; a success replaces its last result, a failure does not; other nodes are
    not touched. *)
Theorem C49_serial : forall S solve opts net bs (s s' : dstate S) found, NoDup (concat bs) ->
  solve_serial S solve opts net bs s = (s', Ok found) ->
  (forall a, ~ In a (concat bs) -> result_of (d_last S s') a = result_of (d_last S s) a /\
                                   d_method S s' a = d_method S s a /\ result_of found a = None) /\
  (forall pre a post, concat bs = pre ++ a :: post ->
     exists th r,
       (forall seen, (forall b, In b pre -> result_of seen b = result_of (d_last S s') b) ->
                     (forall b, ~ In b pre -> result_of seen b = result_of (d_last S s) b) ->
                     given opts net seen a th) /\
       solve a (d_method S s a) th (started (d_last S s) a) = (d_method S s' a, Ok r) /\
       result_of (d_last S s') a = kept (result_of (d_last S s) a) r /\
       result_of found a = kept None r).
Proof. exact serial_sweep. Qed.
Print Assumptions C49_serial.

(** In a parallel sweep every node is solved with the results from before the sweep. *)
Theorem C49_parallel : forall S solve opts net bs (s s' : dstate S) found, NoDup (concat bs) ->
  solve_distributed S solve opts net bs s = (s', Ok found) ->
  d_last S s' = d_last S s /\
  (forall a, ~ In a (concat bs) -> d_method S s' a = d_method S s a /\ result_of found a = None) /\
  (forall a, In a (concat bs) ->
     exists th r, given opts net (d_last S s) a th /\
       solve a (d_method S s a) th (started (d_last S s) a) = (d_method S s' a, Ok r) /\
       result_of found a = kept None r).
Proof. exact parallel_sweep. Qed.
Print Assumptions C49_parallel.

Example C49_sweeps_example :
  exists s1 f1 s2 f2,
    solve_serial _ (link_solve (fun _ _ => true)) (link_options false "constant") link_net [[0%nat]; [1%nat]] link_start = (s1, Ok f1) /\
    solve_distributed _ (link_solve (fun _ _ => true)) (link_options true "constant") link_net [[0%nat]; [1%nat]] link_start = (s2, Ok f2) /\
    map (fun ar => (fst ar, nr_objective (snd ar))) f1 = [(0%nat, 1%Q); (1%nat, 2%Q)] /\
    map (fun ar => (fst ar, nr_objective (snd ar))) f2 = [(0%nat, 1%Q); (1%nat, 1%Q)] /\
    received (link_options false "constant") link_net (d_last _ s1) 1%nat 0%nat = [1%Q].
Proof.
  do 4 eexists. split; [vm_compute; reflexivity|]. split; [vm_compute; reflexivity|].
  split; [vm_compute; reflexivity|]. split; vm_compute; reflexivity.
Qed.

(** The order of unconnected nodes does not matter in a serial sweep. *)
Theorem C49_order : forall S solve opts net bs bs' (s s1 : dstate S) f1, Permutation (concat bs) (concat bs') ->
  NoDup (concat bs) -> unconnected net (concat bs) -> solve_serial S solve opts net bs s = (s1, Ok f1) ->
  exists s2 f2, solve_serial S solve opts net bs' s = (s2, Ok f2) /\
    same_results f1 f2 /\ same_results (d_last S s1) (d_last S s2) /\
    (forall a, d_method S s1 a = d_method S s2 a).
Proof. exact serial_any_order. Qed.
Print Assumptions C49_order.

(** Of unconnected nodes a serial and a parallel sweep give the same results. *)
Theorem C49_serial_parallel : forall S solve opts net bs (s : dstate S), NoDup (concat bs) -> unconnected net (concat bs) ->
  (forall s1 f1, solve_serial S solve opts net bs s = (s1, Ok f1) ->
     exists s2 f2, solve_distributed S solve opts net bs s = (s2, Ok f2) /\
       same_results f1 f2 /\ (forall a, d_method S s1 a = d_method S s2 a)) /\
  (forall s2 f2, solve_distributed S solve opts net bs s = (s2, Ok f2) ->
     exists s1 f1, solve_serial S solve opts net bs s = (s1, Ok f1) /\
       same_results f1 f2 /\ (forall a, d_method S s1 a = d_method S s2 a)).
Proof. exact serial_is_parallel. Qed.
Print Assumptions C49_serial_parallel.

Example C49_unconnected_example : unconnected link_third [1%nat; 2%nat] /\ ~ unconnected link_third [0%nat; 1%nat].
Proof.
  split.
  - intros a b [<-|[<-|[]]] [<-|[<-|[]]] N [H|H]; simpl in H; intuition congruence.
  - intros H. apply (H 0%nat 1%nat); [left; reflexivity|right; left; reflexivity|congruence|].
    right. left. reflexivity.
Qed.

(** Refutation of "the parallel sweep solves one block after the other": blocks of
    unconnected nodes whose results differ from the serial sweep's. *)
Theorem C49_serial_parallel_refuted : exists S solve opts net bs (s s1 s2 : dstate S) f1 f2 r1 r2,
  NoDup (concat bs) /\ Forall (unconnected net) bs /\
  solve_serial S solve opts net bs s = (s1, Ok f1) /\ solve_distributed S solve opts net bs s = (s2, Ok f2) /\
  result_of f1 1%nat = Some r1 /\ result_of f2 1%nat = Some r2 /\ ~ (nr_objective r1 == nr_objective r2)%Q.
Proof. exact link_sweeps. Qed.
Print Assumptions C49_serial_parallel_refuted.

(** With the choice "sample" every block is solved once per sweep. *)
Theorem C49_sample : forall opts blocks draw k, do_choice opts = "sample"%string ->
  Permutation (draw k) (seq 0 (length blocks)) ->
  exists bs, block_iterator opts blocks draw k = Ok bs /\ Permutation bs (map snd blocks).
Proof. exact sampled_blocks. Qed.
Print Assumptions C49_sample.

Example C49_sample_example :
  let opts := mkDal 1 1 1 None 1 1%Q 1%Q false "sample" "constant" 1%Q 1%Q 1%Q in
  let draw (k : nat) := [1%nat; 0%nat] in
  Permutation (draw 0%nat) (seq 0 (length link_blocks)) /\
  block_iterator opts link_blocks draw 0 = Ok [[1%nat]; [0%nat]].
Proof. split; [apply perm_swap|reflexivity]. Qed.

(** During a solution a node that has a result always has a successful one. *)
Theorem C49_kept : forall S solve opts net blocks draw l l' o a,
  NoDup (map fst (l_results S l)) /\ (forall a r, In (a, r) (l_results S l) -> nr_success r = true) ->
  sweep S solve opts net blocks draw l = (l', Ok o) ->
  result_of (l_results S l) a <> None -> exists r, result_of (l_results S l') a = Some r /\ nr_success r = true.
Proof. exact sweep_keeps_results. Qed.
Print Assumptions C49_kept.

Example C49_kept_example :
  let l := mkLoop (list Q * nat) link_start [(1%nat, mkNodeResult true 7%Q [7%Q] (link_data 7%Q))] 0 [] in
  exists l' o, sweep _ (link_solve (fun _ a => (a =? 0)%nat)) (link_options false "constant") link_net link_blocks (fun _ => []) l = (l', Ok o) /\
    o = 8%Q /\ map fst (l_results _ l') = [1%nat; 0%nat].
Proof. do 2 eexists. split; [vm_compute; reflexivity|]. split; vm_compute; reflexivity. Qed.

(** Refutation of "a node that cannot be solved any more keeps its last result" for a
    second solution with the same method, whose nodes get new solution methods. *)
Theorem C49_kept_again_refuted : exists S solve update primal_dual mu_of set_mu put_mu opts net blocks draw (s s1 s2 : dstate S) d1 d2,
  dal_solve S solve update primal_dual mu_of set_mu put_mu opts net blocks draw s = (s1, Ok d1) /\
  dal_solve S solve update primal_dual mu_of set_mu put_mu opts net blocks draw (mkState S (d_last S s1) (d_method S s)) = (s2, Ok d2) /\
  (exists r, result_of (d_last S s1) 1%nat = Some r /\ nr_success r = true) /\
  result_of (d_last S s2) 1%nat = None.
Proof. exact link_forgets. Qed.
Print Assumptions C49_kept_again_refuted.

(** * C50: iterations *)

(** A solution makes the iterations its limits and tolerances demand, and reports: the sum
    of the objectives, the successful results, the number of solved blocks, one less than
    the numbers of outer iterations and of the last sweeps, and errors whose largest is the
    last one compared. *)
Theorem C50_solution : forall S solve update primal_dual mu_of set_mu put_mu opts net blocks draw (s s' : dstate S) d,
  (do_inner_tol opts <= 1)%Q ->
  dal_solve S solve update primal_dual mu_of set_mu put_mu opts net blocks draw s = (s', Ok d) ->
  outer_rule (do_abs_tol opts) (do_outer opts) (map snd (dr_history d)) /\
  (forall k os m, nth_error (dr_history d) k = Some (os, m) ->
     inner_rule (do_inner_tol opts) (sweeps_allowed opts k) os) /\
  (forall h os m, dr_history d = h ++ [(os, m)] ->
     is_largest (concat (map snd (dr_errors d))) m /\
     dr_outer d = Z.of_nat (length h) /\
     (os <> [] -> dr_inner d = (Z.of_nat (length os) - 1)%Z)) /\
  dr_blocks d = (list_sum (map (fun om => length (fst om)) (dr_history d)) * length blocks)%nat /\
  (dr_objective d == sum_of (map (fun ar => nr_objective (snd ar)) (dr_results d)))%Q /\
  NoDup (map fst (dr_results d)) /\
  (forall a r, result_of (dr_results d) a = Some r -> nr_success r = true) /\
  (1 <= do_outer opts)%nat /\ dr_errors d <> [] /\
  ((1 <= do_inner opts)%nat -> d_last S s' = dr_results d).
Proof. exact solution. Qed.
Print Assumptions C50_solution.

Example C50_solution_example :
  exists s' d, link_dal (link_options false "constant") (fun _ _ => true) 1%Q link_start = (s', Ok d) /\
    dr_history d = [([3; 7]%Q, 1%Q); ([11; 15]%Q, 1%Q)] /\ dr_objective d = 15%Q /\ dr_blocks d = 8%nat /\
    dr_inner d = 1%Z /\ dr_outer d = 1%Z /\ dr_errors d = [(0%nat, [1; 1]%Q); (1%nat, [1; 1]%Q)].
Proof.
  do 2 eexists. split; [vm_compute; reflexivity|]. split; [vm_compute; reflexivity|]. split; [vm_compute; reflexivity|].
  split; [vm_compute; reflexivity|]. split; [vm_compute; reflexivity|]. split; vm_compute; reflexivity.
Qed.

(** Without outer iterations there is no result. *)
Theorem C50_no_iteration : forall S solve update primal_dual mu_of set_mu put_mu opts net blocks draw (s : dstate S),
  do_outer opts = 0%nat ->
  dal_solve S solve update primal_dual mu_of set_mu put_mu opts net blocks draw s = (s, Raise ValueError).
Proof. exact no_iteration. Qed.
Print Assumptions C50_no_iteration.

Example C50_no_iteration_example :
  link_dal (mkDal 1 1 1 None 0 1%Q 1%Q false "cyclic" "constant" 1%Q 1%Q 1%Q) (fun _ _ => true) 1%Q link_start =
  (link_start, Raise ValueError).
Proof. reflexivity. Qed.

(** Sweeps that do not change a positive objective end after the second one. *)
Theorem C50_stationary_positive : forall tol n os c, (0 < tol)%Q -> (0 < c)%Q -> inner_rule tol n os ->
  Forall (fun o => o == c)%Q os -> (length os <= 2)%nat.
Proof. exact stationary_stops. Qed.
Print Assumptions C50_stationary_positive.

(** Refutation of "sweeps end when they do not improve the objective": an objective of zero
    or less that stays the same never ends them. *)
Theorem C50_stationary_refuted : forall tol n os c, (0 <= tol)%Q -> (c <= 0)%Q -> inner_rule tol n os ->
  Forall (fun o => o == c)%Q os -> length os = n.
Proof. exact stationary_goes_on. Qed.
Print Assumptions C50_stationary_refuted.

Example C50_stationary_example :
  inner_rule (1 # 100)%Q 5 [3; 3]%Q /\ inner_rule (1 # 100)%Q 3 [-3; -3; -3]%Q.
Proof.
  split.
  - split; [simpl; lia|]. split; [intros k o o' _ _ H; simpl in H; lia|].
    intros _. exists 0%nat, 3%Q, 3%Q. repeat split.
  - split; [simpl; lia|]. split; [|simpl; lia].
    intros [|[|k]] o o' H1 H2 H; simpl in H; try lia. injection H1 as <-. injection H2 as <-. vm_compute. discriminate.
Qed.

(** An unknown choice of blocks is refused. *)
Theorem C50_choice : forall S solve update primal_dual mu_of set_mu put_mu opts net blocks draw (s : dstate S),
  ~ In (do_choice opts) ["cyclic"; "choices"; "sample"]%string ->
  (1 <= do_outer opts)%nat -> (1 <= do_inner opts)%nat ->
  snd (dal_solve S solve update primal_dual mu_of set_mu put_mu opts net blocks draw s) = Raise ValueError.
Proof. exact unknown_choice. Qed.
Print Assumptions C50_choice.

(** Refutation of "a solution in which every node fails is reported": it raises an
    exception. *)
Theorem C50_failures_refuted : forall S solve update primal_dual mu_of set_mu put_mu opts net blocks draw,
  (forall a m th g m' r, solve a m th g = (m', Ok r) -> nr_success r = false) ->
  forall s : dstate S, (1 <= do_outer opts)%nat ->
  exists e, snd (dal_solve S solve update primal_dual mu_of set_mu put_mu opts net blocks draw s) = Raise e.
Proof. exact no_success. Qed.
Print Assumptions C50_failures_refuted.

Example C50_failures_example :
  snd (link_dal (link_options true "constant") (fun _ _ => false) 1%Q link_start) = Raise TypeError /\
  snd (link_dal (mkDal 1 1 1 None 1 1%Q 1%Q false "random" "constant" 1%Q 1%Q 1%Q) (fun _ _ => true) 1%Q link_start) = Raise ValueError.
Proof. split; vm_compute; reflexivity. Qed.

(** Refutation of "an error below the tolerance ends the solution": with a single error
    value an exception does. *)
Theorem C50_single_error_refuted : exists S solve update primal_dual mu_of set_mu put_mu opts net blocks draw (s : dstate S),
  dn_nodes net = [0%nat] /\ (1 <= do_outer opts)%nat /\ (0 < do_abs_tol opts)%Q /\
  (forall a m th g, exists m' r, solve a m th g = (m', Ok r) /\ nr_success r = true) /\
  (forall a m th x ex, exists m', update a m th x ex = (m', Ok [0%Q])) /\
  snd (dal_solve S solve update primal_dual mu_of set_mu put_mu opts net blocks draw s) = Raise TypeError.
Proof. exact link_single. Qed.
Print Assumptions C50_single_error_refuted.

(** * C76: penalties *)

(** Without processes an update is made for every node with a result, with what the node
    was given last, and nothing else is changed. *)
Theorem C76_serial : forall S update primal_dual mu_of set_mu put_mu opts net blocks proxies rd (s s' : dstate S) es,
  NoDup (map fst rd) -> do_distributed opts = false -> do_rule opts <> "primal-dual"%string ->
  update_parameters S update primal_dual mu_of set_mu put_mu opts net blocks proxies rd s = (s', Ok es) ->
  d_last S s' = d_last S s /\
  updated update opts net (d_last S s) rd (d_method S s) (d_method S s') es.
Proof. exact serial_update. Qed.
Print Assumptions C76_serial.

(** With processes all penalties then become the largest one. *)
Theorem C76_distributed : forall S update primal_dual mu_of set_mu put_mu opts net blocks proxies rd (s s' : dstate S) es,
  NoDup (map fst rd) -> do_distributed opts = true -> do_rule opts <> "primal-dual"%string ->
  update_parameters S update primal_dual mu_of set_mu put_mu opts net blocks proxies rd s = (s', Ok es) ->
  exists m1 mu,
    updated update opts net (d_last S s) rd (d_method S s) m1 es /\
    is_largest (concat (map (fun a => mu_of (m1 a)) proxies)) mu /\
    (forall a, In a proxies -> d_method S s' a = put_mu (repeat mu (length (mu_of (m1 a)))) (m1 a)) /\
    (forall a, ~ In a proxies -> d_method S s' a = m1 a) /\
    d_last S s' = d_last S s.
Proof. exact distributed_update. Qed.
Print Assumptions C76_distributed.

(** With the rule "primal-dual" the penalties of all nodes must be equal; the next one is
    chosen by the largest residuals and given to the nodes with a result. *)
Theorem C76_primal_dual : forall S update primal_dual mu_of set_mu put_mu opts net blocks proxies rd (s s' : dstate S) es,
  NoDup (map fst rd) -> do_rule opts = "primal-dual"%string ->
  update_parameters S update primal_dual mu_of set_mu put_mu opts net blocks proxies rd s = (s', Ok es) ->
  exists mu mu' m1 rs r ds,
    (forall a, In a (dn_nodes net) -> exists q l, mu_of (d_method S s a) = q :: l /\ (q == mu)%Q) /\
    updated primal_dual opts net (d_last S s) rd (d_method S s) m1 rs /\
    is_largest (map (fun ar => fst (fst (snd ar))) rs) r /\
    is_largest_ext (map (fun ar => snd (fst (snd ar))) rs) ds /\
    next_penalty opts r ds mu mu' /\
    (forall a, result_of rd a = None -> d_method S s' a = d_method S s a) /\
    (forall a q, result_of rd a = Some q -> set_mu mu' (m1 a) = (d_method S s' a, Ok tt)) /\
    es = map (fun ar => (fst ar, snd (snd ar))) rs /\ d_last S s' = d_last S s.
Proof. exact primal_dual_update. Qed.
Print Assumptions C76_primal_dual.

Example C76_example :
  map (fun a => fst (d_method _ (fst (link_dal (link_options false "constant") (fun _ _ => true) 1%Q link_start)) a)) [0%nat; 1%nat] = [[1]; [4]]%Q /\
  map (fun a => fst (d_method _ (fst (link_dal (link_options true "constant") (fun _ _ => true) 1%Q link_start)) a)) [0%nat; 1%nat] = [[4]; [4]]%Q /\
  map (fun a => fst (d_method _ (fst (link_dal (link_options true "primal-dual") (fun _ _ => true) 1%Q link_start)) a)) [0%nat; 1%nat] = [[4]; [4]]%Q.
Proof. split; [|split]; vm_compute; reflexivity. Qed.

(** Refutation of "all nodes use one penalty": without processes they do not, although they
    start with the same. *)
Theorem C76_one_penalty_refuted : exists S solve update primal_dual mu_of set_mu put_mu opts net blocks draw (s s' : dstate S) d,
  do_distributed opts = false /\ (forall a b, mu_of (d_method S s a) = mu_of (d_method S s b)) /\
  dal_solve S solve update primal_dual mu_of set_mu put_mu opts net blocks draw s = (s', Ok d) /\
  mu_of (d_method S s' 0%nat) <> mu_of (d_method S s' 1%nat).
Proof. exact link_unequal. Qed.
Print Assumptions C76_one_penalty_refuted.

(** Refutation of "a node that failed takes part again later": after a primal-dual update
    that changed the penalty of a node while another one had no result, every further
    update fails. *)
Theorem C76_failed_node_refuted : forall S update primal_dual mu_of set_mu put_mu opts net blocks proxies rd (s s' : dstate S) es a b x y l l',
  NoDup (map fst rd) -> do_rule opts = "primal-dual"%string ->
  update_parameters S update primal_dual mu_of set_mu put_mu opts net blocks proxies rd s = (s', Ok es) ->
  In a (dn_nodes net) -> In b (dn_nodes net) -> result_of rd b = None ->
  mu_of (d_method S s a) = x :: l -> mu_of (d_method S s' a) = y :: l' -> ~ (x == y)%Q ->
  forall proxies' rd', exists e,
    snd (update_parameters S update primal_dual mu_of set_mu put_mu opts net blocks proxies' rd' s') = Raise e.
Proof. exact failed_node. Qed.
Print Assumptions C76_failed_node_refuted.

Example C76_failed_node_example :
  exists s', link_third_dal (link_options false "primal-dual") (fun k a => orb (a <? 2)%nat (1 <? k)%nat) 1%Q link_start = (s', Raise ValueError) /\
    map (fun a => fst (d_method _ s' a)) [0%nat; 1%nat; 2%nat] = [[2]; [2]; [1]]%Q.
Proof. eexists. split; vm_compute; reflexivity. Qed.

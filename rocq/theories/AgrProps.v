(** C92 and C93: what the two ends of a connection have in common in the distributed method,
    and what settled sweeps say about the whole network. *)
From Coq Require Import String Permutation.
From Verif Require Import Base UtilModel ExprModel SysModel NlpModel NlpSpec ResModel NetModel DalModel ExoModel.
From Verif Require Import DalSpec ExoSpec AgrSpec AgrProofs AgrOptProofs AgrExProofs.
Local Open Scope list_scope.
Local Open Scope nat_scope.

(** ** C92 *)

Theorem C92_agree : forall S used next solve update primal_dual mu_of set_mu put_mu opts net blocks draw,
  all_blocks opts blocks draw -> covers net blocks ->
  forall real grow, (forall x y, (x == y)%Q -> (grow x == grow y)%Q) ->
  uses_next S used next mu_of net real solve ->
  raises S used next mu_of opts net real grow update ->
  raises S used next mu_of opts net real (fun q => q) primal_dual ->
  sets S next mu_of set_mu -> puts S next mu_of put_mu ->
  (forall a, In a (dn_nodes net) -> Forall (far_known net) (far_ends net a)) ->
  1 <= do_inner opts ->
  forall s s' d, agreed S next mu_of opts net (d_method S s) ->
    dal_solve S solve update primal_dual mu_of set_mu put_mu opts net blocks draw s = (s', Ok d) ->
    agreed S next mu_of opts net (d_method S s').
Proof. exact solve_agreed. Qed.
Print Assumptions C92_agree.

(** The hypotheses are met with and without processes and with every rule, and the multipliers
    do move. *)
Example C92_case : forall distributed choice rule draw,
  choice = "cyclic"%string \/ choice = "sample"%string /\ (forall k, Permutation (draw k) [0; 1]) ->
  let opts := duo_options distributed choice rule 1 2 in
  all_blocks opts link_blocks draw /\ covers link_net link_blocks /\
  uses_next duo_state duo_used duo_next snd link_net duo_real (duo_solve (fun _ => true)) /\
  raises duo_state duo_used duo_next snd opts link_net duo_real (fun q => q) duo_update /\
  raises duo_state duo_used duo_next snd opts link_net duo_real (fun q => q) duo_residual /\
  sets duo_state duo_next snd duo_set /\ puts duo_state duo_next snd duo_put /\
  (forall a, In a (dn_nodes link_net) -> Forall (far_known link_net) (far_ends link_net a)) /\
  1 <= do_inner opts /\ agreed duo_state duo_next snd opts link_net (d_method duo_state (duo_start 0%Q)).
Proof. exact duo_case. Qed.
Example C92_moves :
  duo_run false "cyclic" "constant" (fun _ => true) (fun _ => []) = Some (-3 # 4, -3 # 4)%Q /\
  duo_run true "cyclic" "constant" (fun _ => true) (fun _ => []) = Some (-1 # 2, -1 # 2)%Q /\
  duo_run true "sample" "primal-dual" (fun _ => true) (fun _ => [1; 0]) = Some (1 # 3, 1 # 3)%Q.
Proof. exact duo_moved. Qed.

(** When blocks are drawn with "choices", a node that is not solved between two updates loses
    one of them, and the ends differ. *)
Theorem C92_choices_refuted : exists S used next solve update primal_dual mu_of set_mu put_mu opts net blocks draw real (s s' : dstate S) d,
  do_choice opts = "choices"%string /\ (forall k i, In i (draw k) -> i < length blocks) /\ (forall k, draw k <> []) /\ covers net blocks /\
  uses_next S used next mu_of net real solve /\ raises S used next mu_of opts net real (fun q => q) update /\
  raises S used next mu_of opts net real (fun q => q) primal_dual /\ sets S next mu_of set_mu /\ puts S next mu_of put_mu /\
  (forall a, In a (dn_nodes net) -> Forall (far_known net) (far_ends net a)) /\ 1 <= do_inner opts /\
  agreed S next mu_of opts net (d_method S s) /\
  dal_solve S solve update primal_dual mu_of set_mu put_mu opts net blocks draw s = (s', Ok d) /\
  ~ agreed S next mu_of opts net (d_method S s').
Proof. exact choices_differ. Qed.
Print Assumptions C92_choices_refuted.

(** When the solutions of a node fail, it is not updated and the other end is. *)
Theorem C92_failed_refuted : exists S used next solve update primal_dual mu_of set_mu put_mu opts net blocks draw real (s s' : dstate S) d,
  all_blocks opts blocks draw /\ covers net blocks /\
  (forall a m th g m' r, solve a m th g = (m', Ok r) ->
     nr_success r = (a =? 0) /\ real a r /\ mu_of m' = mu_of m /\
     forall el k i, (used m' el k i == next m el k i)%Q /\ (next m' el k i == next m el k i)%Q) /\
  raises S used next mu_of opts net real (fun q => q) update /\
  raises S used next mu_of opts net real (fun q => q) primal_dual /\ sets S next mu_of set_mu /\ puts S next mu_of put_mu /\
  (forall a, In a (dn_nodes net) -> Forall (far_known net) (far_ends net a)) /\ 1 <= do_inner opts /\
  agreed S next mu_of opts net (d_method S s) /\
  dal_solve S solve update primal_dual mu_of set_mu put_mu opts net blocks draw s = (s', Ok d) /\
  ~ agreed S next mu_of opts net (d_method S s').
Proof. exact failure_differs. Qed.
Print Assumptions C92_failed_refuted.

(** ** C93 *)

Theorem C93_bound : forall S used next solve mu_of opts net blocks draw real P feasible cost value mix omega point,
  all_blocks opts blocks draw -> covers net blocks ->
  (forall a, In a (dn_nodes net) -> Forall (far_known net) (far_ends net a)) ->
  uses_next S used next mu_of net real solve ->
  minimises S next mu_of opts net P feasible cost value omega point solve ->
  convex P feasible cost value mix ->
  forall pairs, wired net pairs ->
  forall (l l' : loop S) o, agreed S next mu_of opts net (d_method S (l_state S l)) ->
    full_results opts (d_last S (l_state S l)) -> full_results opts (l_results S l') ->
    sweep S solve opts net blocks draw l = (l', Ok o) -> unmoved opts net (d_last S (l_state S l)) (l_results S l') ->
    exists x, results_are net P point (l_results S l') x /\ (forall a, In a (dn_nodes net) -> feasible a (x a)) /\
      forall z, (forall a, In a (dn_nodes net) -> feasible a (z a)) -> joined opts net P value z ->
        (total_cost net P cost x + gap_cost S next mu_of opts P value omega pairs (d_method S (l_state S l)) x
         <= total_cost net P cost z)%Q.
Proof. exact settled_bound. Qed.
Print Assumptions C93_bound.

Example C93_problem : let opts := duo_options false "cyclic" "constant" 1 2 in
  all_blocks opts link_blocks (fun _ => []) /\ covers link_net link_blocks /\ wired link_net duo_pairs /\
  (forall a, In a (dn_nodes link_net) -> Forall (far_known link_net) (far_ends link_net a)) /\
  uses_next duo_state duo_used duo_next snd link_net duo_real (duo_solve (fun _ => true)) /\
  convex Q (fun _ _ => True) duo_cost duo_value duo_mix /\
  minimises duo_state duo_next snd opts link_net Q (fun _ _ => True) duo_cost duo_value (fun _ _ => 1%Q) duo_point (duo_solve (fun _ => true)).
Proof. exact duo_problem. Qed.
(** Settled sweeps with a gap of 2/3: the bound is 8/9, and the least cost of the network 1. *)
Example C93_gap : let opts := duo_options false "cyclic" "constant" 1 2 in let l := duo_loop (4 # 3)%Q (2 # 3)%Q 0%Q 0%Q in
  exists l' o, duo_sweep opts l = (l', Ok o) /\ agreed duo_state duo_next snd opts link_net (d_method duo_state (l_state duo_state l)) /\
    full_results opts (d_last duo_state (l_state duo_state l)) /\ full_results opts (l_results duo_state l') /\
    unmoved opts link_net (d_last duo_state (l_state duo_state l)) (l_results duo_state l') /\
    results_are link_net Q duo_point (l_results duo_state l') (duo_at (4 # 3) (2 # 3)) /\
    (total_cost link_net Q duo_cost (duo_at (4 # 3) (2 # 3)) +
     gap_cost duo_state duo_next snd opts Q duo_value (fun _ _ => 1) duo_pairs (d_method duo_state (l_state duo_state l)) (duo_at (4 # 3) (2 # 3)) == 8 # 9)%Q /\
    joined opts link_net Q duo_value (duo_at 1%Q 1%Q) /\ (total_cost link_net Q duo_cost (duo_at 1%Q 1%Q) == 1)%Q.
Proof. exact duo_gap_case. Qed.

Theorem C93_optimal : forall S used next solve mu_of opts net blocks draw real P feasible cost value mix omega point,
  all_blocks opts blocks draw -> covers net blocks ->
  (forall a, In a (dn_nodes net) -> Forall (far_known net) (far_ends net a)) ->
  uses_next S used next mu_of net real solve ->
  minimises S next mu_of opts net P feasible cost value omega point solve ->
  convex P feasible cost value mix ->
  forall pairs, wired net pairs ->
  forall (l l' : loop S) o x, agreed S next mu_of opts net (d_method S (l_state S l)) ->
    full_results opts (d_last S (l_state S l)) -> full_results opts (l_results S l') ->
    sweep S solve opts net blocks draw l = (l', Ok o) -> unmoved opts net (d_last S (l_state S l)) (l_results S l') ->
    results_are net P point (l_results S l') x -> joined opts net P value x ->
    (forall a, In a (dn_nodes net) -> feasible a (x a)) /\
    forall z, (forall a, In a (dn_nodes net) -> feasible a (z a)) -> joined opts net P value z ->
      (total_cost net P cost x <= total_cost net P cost z)%Q.
Proof. exact settled_optimal. Qed.
Print Assumptions C93_optimal.

Example C93_joined : let opts := duo_options false "cyclic" "constant" 1 2 in let l := duo_loop 1%Q 1%Q (-1)%Q (-1)%Q in
  exists l' o, duo_sweep opts l = (l', Ok o) /\ agreed duo_state duo_next snd opts link_net (d_method duo_state (l_state duo_state l)) /\
    full_results opts (d_last duo_state (l_state duo_state l)) /\ full_results opts (l_results duo_state l') /\
    unmoved opts link_net (d_last duo_state (l_state duo_state l)) (l_results duo_state l') /\
    results_are link_net Q duo_point (l_results duo_state l') (duo_at 1%Q 1%Q) /\ joined opts link_net Q duo_value (duo_at 1%Q 1%Q).
Proof. exact duo_joined_case. Qed.

(** Without agreement of the multipliers, settled sweeps whose values agree at the connections
    may be far from the best. *)
Theorem C93_disagreed_refuted : exists S used next solve mu_of opts net blocks draw real P feasible cost value mix omega point pairs (l l' : loop S) o x z,
  all_blocks opts blocks draw /\ covers net blocks /\ wired net pairs /\
  (forall a, In a (dn_nodes net) -> Forall (far_known net) (far_ends net a)) /\
  uses_next S used next mu_of net real solve /\ convex P feasible cost value mix /\
  minimises S next mu_of opts net P feasible cost value omega point solve /\
  full_results opts (d_last S (l_state S l)) /\ full_results opts (l_results S l') /\
  sweep S solve opts net blocks draw l = (l', Ok o) /\ unmoved opts net (d_last S (l_state S l)) (l_results S l') /\
  results_are net P point (l_results S l') x /\ joined opts net P value x /\
  (forall a, In a (dn_nodes net) -> feasible a (z a)) /\ joined opts net P value z /\
  (total_cost net P cost z < total_cost net P cost x)%Q.
Proof. exact disagreed. Qed.
Print Assumptions C93_disagreed_refuted.

(** Property C80: with averaged connections, the nodes are coupled through the means of the
    last values at both ends. *)
From Coq Require Import String Lia.
From Verif Require Import Base UtilModel ExprModel LagSpec SysModel NlpModel NlpSpec OcpModel ResModel NetModel DalModel DalSpec.
From Verif Require Import ExoModel ExoSpec BipModel BipSpec BipProofs.
Local Open Scope list_scope.

(** Each connected input becomes an algebraic variable with an equation of its own, each
    connected output gets a constraint; both compare the variable with the mean of two
    parameters, new ones for each variable and each point of an element.  The recorded
    indices are those of the new equations and variables.  Everything else stays. *)
Theorem C80_prepared : forall points degree preds succs s s', good_points points degree ->
  bip_exogenous points degree preds succs s = (s', Ok tt) ->
  Forall (fun c => length (fst c) = length (snd c)) preds /\ Forall (fun c => length (fst c) = length (snd c)) succs /\
  averaging points degree (map snd preds) (map fst succs) s s' /\ kept_problem (e_problem s) (e_problem s').
Proof. exact bip_prepared. Qed.
Print Assumptions C80_prepared.

Example C80_prepared_example :
  good_points relay_points 2 /\
  exists s s', relay_start [] = Ok s /\
    bip_exogenous relay_points 2 [([10], [20])]%nat [([21], [30])]%nat s = (s', Ok tt) /\
    m_y (o_model (e_problem s')) = [21; 20]%nat /\ m_u (o_model (e_problem s')) = [24]%nat /\
    m_theta (o_model (e_problem s')) = [100; 101; 102; 103; 104; 105; 106; 107]%nat /\
    e_relax s' = mkRelax [1]%nat [1]%nat [0]%nat.
Proof.
  split; [exact relay_points_good|].
  do 2 eexists. split; [vm_compute; reflexivity|]. split; [vm_compute; reflexivity|]. repeat split; vm_compute; reflexivity.
Qed.

(** When the attribute [model] of the nodes has the variables of their problems, the method
    passes the last values of both ends of each connection, variable by variable and point
    by point, else the guesses, else zero. *)
Theorem C80_passed : forall opts net attr last a th, models_agree net attr -> Forall (far_known net) (both_ends net a) ->
  full_results opts last -> bip_theta opts net attr last a = Ok th -> forall el, el < do_elements opts ->
  by_variable opts net last el (both_ends net a) (passed th el).
Proof. exact bip_by_variable. Qed.
Print Assumptions C80_passed.

Example C80_passed_example :
  both_ends relay_net 1%nat = [FarOutput 0 10; FarInput 1 20; FarInput 2 30; FarOutput 1 21]%nat /\
  exists th, bip_theta relay_options relay_net (fun a => (dn_y relay_net a, dn_u relay_net a)) relay_results 1%nat = Ok th /\
    passed th 0 = [4; 4; 0; 0; 7; 8; 0; 0]%Q.
Proof. split; [reflexivity|]. eexists. split; vm_compute; reflexivity. Qed.

(** For connections of one variable, or with one point in an element: when the parameters
    of a node without parameters of its own are given what the method passes to it, at
    every point the equations say that a connected variable equals the mean of its own last
    value and of the last value at the other end of its connection. *)
Theorem C80_meaning : forall points opts net attr last a s s' th el,
  averaging_node points opts net attr last a s s' th -> el < do_elements opts ->
  simple (do_degree opts) (map snd (dn_pred net a ++ dn_succ net a)) ->
  let m := o_model (e_problem s) in let m' := o_model (e_problem s') in
  length (m_theta m') = (length (m_theta m) + length (passed th el))%nat /\
  exists alg eqs,
    m_alg m' = m_alg m ++ concat alg /\ o_g_eq (e_problem s') = o_g_eq (e_problem s) ++ concat eqs /\
    forall F env k, m_theta m = [] -> takes env (m_theta m') (passed th el) ->
      k < do_degree opts -> (env (m_tau m) == nth k (points (do_degree opts)) 0)%Q ->
      all_say net last a el k F env same_place alg eqs.
Proof. exact w_C80_meaning. Qed.
Print Assumptions C80_meaning.

Example C80_meaning_example :
  exists s s' th, relay_start [] = Ok s /\
    averaging_node relay_points relay_options relay_net (fun a => (dn_y relay_net a, dn_u relay_net a)) relay_results 1%nat s s' th /\
    simple (do_degree relay_options) (map snd (dn_pred relay_net 1%nat ++ dn_succ relay_net 1%nat)).
Proof.
  do 3 eexists. split; [vm_compute; reflexivity|]. split.
  - split; [exact relay_points_good|]. split; [intros b; reflexivity|]. split; [vm_compute; reflexivity|]. split.
    + cbn. repeat constructor; cbn; intuition discriminate.
    + split; [|vm_compute; reflexivity]. intros b r el H He. unfold result_of in H. cbn in H.
      destruct b as [|[|[|b]]]; cbn in H; try discriminate; injection H as <-; cbn in He; assert (el = 0%nat) by lia; subst; split; reflexivity.
  - right. repeat constructor.
Qed.

(** For connections of any size: the parameters are listed point by point and the values
    are passed variable by variable.  At point [k] the equation of variable [i] of [n] has
    the mean of value number [k * n + i]. *)
Theorem C80_vector : forall points opts net attr last a s s' th el,
  averaging_node points opts net attr last a s s' th -> el < do_elements opts ->
  let m := o_model (e_problem s) in let m' := o_model (e_problem s') in
  length (m_theta m') = (length (m_theta m) + length (passed th el))%nat /\
  exists alg eqs,
    m_alg m' = m_alg m ++ concat alg /\ o_g_eq (e_problem s') = o_g_eq (e_problem s) ++ concat eqs /\
    forall F env k, m_theta m = [] -> takes env (m_theta m') (passed th el) ->
      k < do_degree opts -> (env (m_tau m) == nth k (points (do_degree opts)) 0)%Q ->
      all_say net last a el k F env (transposed (do_degree opts)) alg eqs.
Proof. exact w_C80_vector. Qed.
Print Assumptions C80_vector.

(** So a connection of two variables is mixed up: at the first point the input 24 is
    compared with (2 + 6) / 2, the mean of the values of 10 and 20 at the second point; the
    values of 11 and 24 at the first point are 3 and 7. *)
Theorem C80_vector_refuted :
  exists s s' th, relay_start [] = Ok s /\
    averaging_node relay_points relay_options pipes_net pipes_attr pipes_results 1%nat s s' th /\
    (forall F env, takes env (m_theta (o_model (e_problem s'))) (passed th 0) -> (env (m_tau (o_model (e_problem s))) == 1 # 3)%Q ->
       exists e, nth_error (m_alg (o_model (e_problem s'))) 2 = Some e /\ (eval F env e == env 24%nat - (2 + 6) / 2)%Q) /\
    far_value pipes_net pipes_results 0 0 (FarOutput 0%nat 11%nat) 3%Q /\
    far_value pipes_net pipes_results 0 0 (FarInput 1%nat 24%nat) 7%Q.
Proof. exact w_C80_vector_refuted. Qed.
Print Assumptions C80_vector_refuted.

(** A node made from a model and a problem keeps the model of the user, whose inputs may
    stand in another order than those of the prepared problem: as the last value of the
    input 20, which is 2, the method passes 50, the one of the input 24. *)
Theorem C80_model_refuted :
  let attr a := if Nat.eqb a 1 then node_model (Some ([21%nat], [20; 24]%nat)) (dn_y relaxed_net a, dn_u relaxed_net a)
                else (dn_y relaxed_net a, dn_u relaxed_net a) in
  exists th, bip_theta relay_options relaxed_net attr relaxed_results 1%nat = Ok th /\
    nth_error (both_ends relaxed_net 1%nat) 1 = Some (FarInput 1%nat 20%nat) /\
    nth (1 * do_degree relay_options + 0) (passed th 0) 0%Q = 50%Q /\
    far_value relaxed_net relaxed_results 0 0 (FarInput 1%nat 20%nat) 2%Q /\
    far_value relaxed_net relaxed_results 0 0 (FarInput 1%nat 24%nat) 50%Q.
Proof. exact w_C80_model_refuted. Qed.
Print Assumptions C80_model_refuted.

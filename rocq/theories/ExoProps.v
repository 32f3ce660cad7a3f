(** Property C77: the problems of the nodes of a network are coupled through parameters. *)
From Coq Require Import String Lia.
From Verif Require Import Base UtilModel ExprModel LagSpec SysModel NlpModel NlpSpec OcpModel ResModel NetModel DalModel DalSpec.
From Verif Require Import ExoModel ExoSpec ExoProofs.
Local Open Scope list_scope.

(** Each connected input becomes an algebraic variable with an equation of its own, each
    connected output gets a constraint, and each has its own new parameters, one for each
    point of an element, of which the other side of the equation takes the values.  The
    recorded indices are those of the new equations and variables.  Everything else stays. *)
Theorem C77_prepared : forall points degree preds succs s s', good_points points degree ->
  include_exogenous points degree false preds succs s = (s', Ok tt) ->
  prepared points degree (fed_inputs preds) (used_outputs succs) s s' /\ kept_problem (e_problem s) (e_problem s').
Proof. exact w_C77_prepared. Qed.
Print Assumptions C77_prepared.

Example C77_prepared_example :
  good_points relay_points 2 /\
  exists s s', relay_start [] = Ok s /\
    include_exogenous relay_points 2 false [([10], [20])]%nat [([21], [30])]%nat s = (s', Ok tt) /\
    m_y (o_model (e_problem s')) = [21; 20]%nat /\ m_u (o_model (e_problem s')) = [24]%nat /\
    m_theta (o_model (e_problem s')) = [100; 101; 102; 103]%nat /\
    e_relax s' = mkRelax [1]%nat [1]%nat [0]%nat.
Proof.
  split.
  - split; [lia|]. split; [reflexivity|].
    intros [|[|j]] [|[|k]] Hj Hk E; cbn in Hj, Hk; try lia; vm_compute in E; discriminate.
  - do 2 eexists. split; [vm_compute; reflexivity|]. split; [vm_compute; reflexivity|]. repeat split; vm_compute; reflexivity.
Qed.

(** When the parameters of a node without parameters of its own are given what the method
    passes to it, at every point of the element the equations say that a connected input
    equals the output of the predecessor, and a connected output the input of the
    successor: their last values there, else the guesses, else zero. *)
Theorem C77_meaning : forall points opts net last a s s' el,
  good_points points (do_degree opts) ->
  include_exogenous points (do_degree opts) false (map snd (dn_pred net a)) (map snd (dn_succ net a)) s = (s', Ok tt) ->
  Forall (far_known net) (far_ends net a) -> full_results opts last -> el < do_elements opts ->
  let ins := fed_inputs (map snd (dn_pred net a)) in
  let outs := used_outputs (map snd (dn_succ net a)) in
  let m := o_model (e_problem s) in let m' := o_model (e_problem s') in
  length (m_theta m') = (length (m_theta m) + length (received opts net last a el))%nat /\
  exists alg eqs,
    m_alg m' = m_alg m ++ alg /\ length alg = length ins /\
    o_g_eq (e_problem s') = o_g_eq (e_problem s) ++ eqs /\ length eqs = length outs /\
    forall F env k, m_theta m = [] -> takes env (m_theta m') (received opts net last a el) ->
      k < do_degree opts -> (env (m_tau m) == nth k (points (do_degree opts)) 0)%Q ->
      (forall i, i < length ins -> exists f q,
         nth_error (far_ends net a) i = Some f /\ far_value net last el k f q /\
         (eval F env (nth i alg (EConst 0%Q)) == env (nth i ins 0%nat) - q)%Q) /\
      (forall i, i < length outs -> exists f q,
         nth_error (far_ends net a) (length ins + i) = Some f /\ far_value net last el k f q /\
         (eval F env (nth i eqs (EConst 0%Q)) == q - env (nth i outs 0%nat))%Q).
Proof. exact w_C77_meaning. Qed.
Print Assumptions C77_meaning.

Example C77_meaning_example :
  far_ends relay_net 1%nat = [FarOutput 0%nat 10%nat; FarInput 2%nat 30%nat] /\
  received relay_options relay_net relay_results 1%nat 0%nat = [4; 4; 7; 8]%Q /\
  Forall (far_known relay_net) (far_ends relay_net 1%nat) /\ full_results relay_options relay_results /\
  far_value relay_net relay_results 0 1 (FarInput 2%nat 30%nat) 8%Q.
Proof.
  split; [reflexivity|]. split; [vm_compute; reflexivity|]. split.
  - constructor; [|constructor; [|constructor]]; (split; [left; reflexivity|]); (constructor; [intros []|constructor]).
  - split.
    + intros b r el H He. unfold result_of in H. cbn in H.
      destruct b as [|[|[|b]]]; cbn in H; try discriminate. injection H as <-. cbn in He. assert (el = 0%nat) by lia. subst. split; reflexivity.
    + exists 0%nat. split; [split; [reflexivity|constructor; [intros []|constructor]]|]. reflexivity.
Qed.

(** A node with parameters of its own is not given values for them: with the parameters
    [7] the node has five and is given four. *)
Theorem C77_own_refuted :
  exists s s', relay_start [7]%nat = Ok s /\
    include_exogenous relay_points (do_degree relay_options) false
      (map snd (dn_pred relay_net 1%nat)) (map snd (dn_succ relay_net 1%nat)) s = (s', Ok tt) /\
    length (m_theta (o_model (e_problem s'))) = 5%nat /\
    length (received relay_options relay_net relay_results 1%nat 0%nat) = 4%nat /\
    hd_error (m_theta (o_model (e_problem s'))) = Some 7%nat.
Proof.
  do 2 eexists. split; [vm_compute; reflexivity|]. split; [vm_compute; reflexivity|].
  split; [vm_compute; reflexivity|]. split; vm_compute; reflexivity.
Qed.
Print Assumptions C77_own_refuted.

(** The preparation of a node that has a predecessor cannot be repeated: a second call of
    [solve] raises an error. *)
Theorem C77_again_refuted : forall points degree y u preds succs s s' next relax,
  good_points points degree ->
  include_exogenous points degree false ((y, u) :: preds) succs s = (s', Ok tt) ->
  snd (include_exogenous points degree false ((y, u) :: preds) succs (mkExo (e_problem s') next relax)) = Raise ValueError.
Proof. exact w_C77_again. Qed.
Print Assumptions C77_again_refuted.

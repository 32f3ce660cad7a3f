(** Vocabulary for the method of one node of a network: the problem is prepared for its
    connections, the new equations are relaxed, and the relaxed problem is transcribed. *)
From Coq Require Import String.
From Verif Require Import Base UtilModel ExprModel LagSpec SysModel NlpModel NlpSpec OcpModel SysSpec OcpSpec DiscModel DiscSpec ColSpec DirSpec
  AugModel AugSpec AlsSpec MulSpec ResModel NetModel DalModel DalSpec ExoModel ExoSpec AgrSpec.
Local Open Scope list_scope.

(** The distributed method asks to relax exactly the equations that it recorded. *)
Definition connections (r : relax) : request := mkRequest (Some (rl_alg r)) (Some (rl_y r)) (rl_eq r) false.

Definition variable (e : far_end) : sym := match e with FarInput _ v => v | FarOutput _ v => v end.

(** Node [a] of the network, whose problem is in [s], has been prepared ([s']), relaxed
    ([rx]) and transcribed ([k]).  It had no element-wise parameters and nothing relaxed. *)
Record connected_node (same : expr -> expr -> bool) (points : nat -> list Q) (dfun : nat -> expr -> expr)
    (dopts : dal_options) (net : dnet) (a : addr) (opts : al_options) (s s' : exo) (c : sym) (rx : relaxing)
    (k : method) (c0 : sym) (nl : nlp) (ps : par_syms) (r : traj sym) (x_c x_c0 first : sym) : Prop := mkConnectedNode
  { cn_fresh : e_relax s = mkRelax [] [] [] /\ m_theta (o_model (e_problem s)) = [];
    cn_prepared : include_exogenous points (do_degree dopts) false (map snd (dn_pred net a)) (map snd (dn_succ net a)) s = (s', Ok tt);
    cn_relaxed : relaxation same points opts (connections (e_relax s')) (e_problem s') c rx;
    cn_setting : direct_setting points dfun k c0 nl ps r (rx_problem rx) x_c x_c0 first;
    cn_degree : do_degree dopts = k_degree k /\ al_degree opts = k_degree k;
    cn_elements : do_elements dopts = k_elements k;
    cn_decided : o_p_opt (e_problem s') = [] /\ o_theta_opt (e_problem s') = [];
    cn_new : forall e v, In e (written (e_problem s')) -> In v (x_c :: x_c0 :: m_u_par (k_model k)) -> ~ mentions e v }.

(** Trajectories of the node, and the values of its connected variables at the collocation
    points. *)
Definition node_trajectory : Type := trajectory * (nat -> nat -> list Q).
Definition node_value (rx : relaxing) (elements : nat) (pts : list Q) (net : dnet) (a : addr) (x : node_trajectory) (el k i : nat) : Q :=
  user_point (rx_problem rx) elements (fst x) (snd x) el (nth k pts 0%Q) (variable (nth i (own_ends net a) (FarInput a 0%nat))).

(** Element by element the parameters of the trajectory are [th] followed by the
    multipliers [nu], point by point, and the last parameters are the weights [mu]. *)
Definition node_parameters (elements degree n : nat) (own_p : nat) (th : theta Q) (nu : nat -> nat -> nat -> Q) (mu : list Q) (q : trajectory) : Prop :=
  skipn own_p (q_p q) = mu /\
  forall el, (el < elements)%nat -> q_theta q el = given_in (Some th) el ++ flat_map (fun k => map (nu el k) (seq 0 n)) (seq 0 degree).

(** ** The node between two others *)

(** The node of the example of C77, which pays for the square of its second input. *)
Definition relay_cost : expr := EBin OMul (EVar 24) (EVar 24).
Definition relay_node : res exo :=
  match relay_start [] with Ok s => Ok (mkExo (set_o_L [relay_cost] (e_problem s)) 100%nat (e_relax s)) | Raise e => Raise e end.
Definition relay_ready : res exo :=
  match relay_node with
  | Raise e => Raise e
  | Ok s => match include_exogenous radau 2%nat false (map snd (dn_pred relay_net 1%nat)) (map snd (dn_succ relay_net 1%nat)) s with
            | (s', Ok _) => Ok s' | (_, Raise e) => Raise e end
  end.
Definition relay_al : al_options := mkAl 2 1 3 (1 # 10) 1%Q 10%Q 4%Q false "bounded-increase" (1 # 2) false false false false false.
Definition relay_relaxed : res relaxing :=
  match relay_ready with
  | Raise e => Raise e
  | Ok s => match AugModel.relax same_expr radau relay_al (connections (e_relax s)) (start_relaxing (e_problem s) 200) with
            | (rx, Ok _) => Ok rx | (_, Raise e) => Raise e end
  end.
Definition relay_method : res method :=
  match relay_relaxed with
  | Raise e => Raise e
  | Ok rx => match direct_prepare radau 2%nat 60%nat 61%nat 300%nat (rx_problem rx) with
             | (o, Ok _) => new_method o 2 2 1 true false true false | (_, Raise e) => Raise e end
  end.

(** Properties of optimisation results. *)
From Coq Require Import String.
From Verif Require Import Base UtilModel ExprModel SysModel OcpModel OcpSpec DataModel DataSpec DiscModel DiscSpec DiscProofs
  ResModel ResSpec ResProofs ResAccessProofs.
Local Open Scope list_scope.
Local Open Scope nat_scope.

(** ** C57: results of an optimal control problem *)

(** The data set of a result with values and times for every element has the entries
    of the problem and those added by the method, and no others.  Each entry holds the
    values beside their times in the order of the elements, under the names of the
    result. *)
Theorem C57_dataset :
  forall default r, complete r ->
    exists d, to_dataset default r = Ok d /\ consistent d /\
      dkeys d = reserved ++ map fst (w_other r) /\
      (forall k l, expected r k l -> contents k d = Some l) /\
      (forall e, look "x" d = Some e -> e_names e = w_x_names r) /\
      (forall e, look "y" d = Some e -> e_names e = w_y_names r) /\
      (forall e, look "u" d = Some e -> e_names e = w_u_names r) /\
      (forall e, look "theta_opt" d = Some e -> e_names e = w_theta_names r).
Proof. exact dataset_contents. Qed.
Print Assumptions C57_dataset.

(** The components [idx] of the variables of a type, element by element and point by
    point; an index outside the vectors is refused. *)
Theorem C57_get_variable :
  forall r type data n idx, all_wide r -> of_type r type data n -> Forall (fun i => i < n) idx ->
    exists v, get_variable r type idx = Ok v /\ Forall2 (Forall2 (rows_of idx)) data v.
Proof. exact get_variable_rows. Qed.
Print Assumptions C57_get_variable.

Theorem C57_get_variable_outside :
  forall r type data n idx i el v rest, all_wide r -> of_type r type data n ->
    In i idx -> n <= i -> data = (v :: el) :: rest -> get_variable r type idx = Raise CasadiError.
Proof. exact get_variable_outside. Qed.
Print Assumptions C57_get_variable_outside.

Theorem C57_get_variable_unknown :
  forall r type idx, ~ In type ["x"; "y"; "u"]%string -> get_variable r type idx = Raise NotImplementedErr.
Proof. exact get_variable_unknown. Qed.
Print Assumptions C57_get_variable_unknown.

(** A name means a control, or else an algebraic variable, or else a state, and the
    first one of that name. *)
Theorem C57_by_name :
  forall r name data i, all_wide r -> meant r name data i ->
    exists v, get_variable_by_name r name = Ok v /\ Forall2 (Forall2 (rows_of [i])) data v.
Proof. exact by_name_meant. Qed.
Print Assumptions C57_by_name.

Theorem C57_unknown_name :
  forall r name, ~ In name (w_x_names r ++ w_y_names r ++ w_u_names r) ->
    get_variable_by_name r name = Raise ValueError.
Proof. exact by_name_unknown. Qed.
Print Assumptions C57_unknown_name.

(** The first control is the control of the first sample. *)
Theorem C57_first_control :
  forall r, complete r -> w_u_names r <> [] -> w_elements r <> 0 ->
    exists t c, first_control r = Ok c /\ hd_error (samples (w_elements r) (w_u_time r) (w_u r)) = Some (t, c).
Proof. exact first_control_sample. Qed.
Print Assumptions C57_first_control.

(** From the values of the decision variables, laid out in one vector by the solver,
    the result gives every variable its value again, at the times of its element, the
    optimised parameters replacing those given and the others kept, and the cost as
    the last values of the cost states.  For a method with control variables it is a
    complete result. *)
Theorem C57_created :
  forall points evaluated s k names x_cost z x_0 p theta,
    k_elements k <> 0 -> decided s k z -> arguable k p theta ->
    (forall v, x_cost = Some v -> incl v (m_x (k_model k)) /\ NoDup (m_x (k_model k))) ->
    (control_count k = 0 -> forall a ts, exists u, evaluated (reported s z) a ts = Ok u) ->
    exists r p' theta',
      create_optimization_result points evaluated s k names x_cost (flatten z) x_0 (p, theta) = ((p', theta'), Ok r) /\
      w_elements r = k_elements k /\ w_x r = states_of s z /\ w_y r = r_y z /\
      (control_count k <> 0 -> w_u r = r_u z) /\
      (control_count k = 0 -> exists ts, timed k ts (u_instants points k) /\ evaluated (reported s z) (p', theta') ts = Ok (w_u r)) /\
      timed k (w_x_time r) (x_instants points s k) /\ timed k (w_y_time r) (y_instants points s k) /\
      timed k (w_u_time r) (u_instants points k) /\
      (w_t_f r = o_t_f (k_problem k) /\ w_x_0 r = x_0 /\ w_p_opt r = r_p z /\ w_theta_opt r = r_theta z /\ w_eta r = r_eta z) /\
      w_p r = p' /\ w_theta r = theta' /\
      overwritten (m_p (k_model k)) (o_p_opt (k_problem k)) p (r_p z) p' /\
      (dkeys theta' = dkeys theta /\
       forall el v, dget Nat.eqb el theta = Some v -> exists v', dget Nat.eqb el theta' = Some v' /\
         overwritten (m_theta (k_model k)) (o_theta_opt (k_problem k)) v (nth el (r_theta z) []) v') /\
      (x_cost = None -> w_cost r = None) /\
      (forall v, x_cost = Some v -> exists c, w_cost r = Some c /\
         forall j n i, nth_error v j = Some n -> nth_error (m_x (k_model k)) i = Some n ->
           nth_error c j = nth_error (last (last (r_x z) []) []) i) /\
      (names_fit k names -> (forall d, length (points d) = d) -> control_count k <> 0 -> k_degree k <> 0 ->
       complete r /\ all_wide r).
Proof. exact created. Qed.
Print Assumptions C57_created.

(** The parameters given by the caller are not left alone: the object passed is
    overwritten. *)
Theorem C57_arguments_kept_refuted :
  exists points evaluated k names raw x_0 p theta p' theta' r,
    create_optimization_result points evaluated Collocation k names None raw x_0 (p, theta) = ((p', theta'), Ok r) /\
    p' <> p /\ theta' <> theta.
Proof. exact arguments_kept_refuted. Qed.
Print Assumptions C57_arguments_kept_refuted.

(** Asking whether a result is valid never succeeds. *)
Theorem C57_is_valid_refuted : forall r b, is_valid r <> Ok b.
Proof. exact is_valid_never. Qed.
Print Assumptions C57_is_valid_refuted.

(** The cart of C38 with two collocation points on three elements.  The solver's vector
    counts from 0 to 30.  The hypotheses of [C57_created] hold; mass (first parameter) is kept, friction is
    replaced, the second element-wise parameter is replaced in every element, and the
    data set has ten states with their times, the last one repeated at time 10. *)
Example C57_ex :
  exists k, cart_method 2 3 = Ok k /\ decided Collocation k cart_values /\
    arguable k [100%Q; 200%Q] [(0, [7%Q; 1%Q]); (1, [8%Q; 2%Q]); (2, [9%Q; 3%Q])] /\
    names_fit k any_names /\ control_count k <> 0 /\
    exists r d p' th', create_optimization_result two_points (fun _ _ _ => Raise AnyException) Collocation k any_names (Some [11])
        (flatten cart_values) [1%Q; 0%Q] ([100%Q; 200%Q], [(0, [7%Q; 1%Q]); (1, [8%Q; 2%Q]); (2, [9%Q; 3%Q])]) = ((p', th'), Ok r) /\
      Forall2 Qeq p' [100%Q; 27%Q] /\ th' = [(0, [7%Q; 28%Q]); (1, [8%Q; 29%Q]); (2, [9%Q; 30%Q])] /\
      w_cost r = Some [17%Q] /\
      first_control r = Ok [24%Q] /\
      get_variable_by_name r "speed" = Ok [[[1]; [3]; [5]]; [[7]; [9]; [11]]; [[13]; [15]; [17]]; [[17]]]%Q /\
      get_variable_by_name r "push" = Ok [[[24]]; [[25]]; [[26]]]%Q /\
      to_dataset (fun s _ => s) r = Ok d /\
      (exists l, contents "x" d = Some l /\ Forall2 Qeq (map fst l) [0; 5 # 3; 10 # 3; 10 # 3; 5; 20 # 3; 20 # 3; 25 # 3; 10; 10]%Q /\
         map snd l = [[0; 1]; [2; 3]; [4; 5]; [6; 7]; [8; 9]; [10; 11]; [12; 13]; [14; 15]; [16; 17]; [16; 17]]%Q) /\
      (exists l, contents "theta_opt" d = Some l /\ Forall2 Qeq (map fst l) [0; 10 # 3; 20 # 3]%Q /\ map snd l = [[28]; [29]; [30]]%Q).
Proof.
  destruct (cart_method 2 3) as [k|e] eqn:E; [|vm_compute in E; discriminate].
  exists k. vm_compute in E. injection E as <-. split; [reflexivity|]. split; [|split; [|split; [|split]]].
  - repeat split; repeat constructor.
  - assert (N : forall l, nodup Nat.eq_dec l = l -> NoDup l) by (intros l <-; apply NoDup_nodup).
    constructor.
    + intros a [<-|[]]. vm_compute. tauto.
    + intros a [<-|[]]. vm_compute. tauto.
    + split; apply N; reflexivity.
    + split; apply N; reflexivity.
    + reflexivity.
    + apply N. reflexivity.
    + intros el v [H|[H|[H|[]]]]; injection H as <- <-; split; vm_compute; auto.
  - repeat split.
  - discriminate.
  - eexists. eexists. eexists. eexists. split; [vm_compute; reflexivity|]. split; [repeat constructor|]. split; [reflexivity|].
    split; [reflexivity|]. split; [reflexivity|]. split; [reflexivity|]. split; [reflexivity|]. split; [vm_compute; reflexivity|].
    split; (eexists; split; [vm_compute; reflexivity|]; split; [repeat constructor | reflexivity]).
Qed.

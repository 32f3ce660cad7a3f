(** Properties of the values of a trajectory at times chosen by the caller, when the method
    is multiple shooting. *)
From Coq Require Import String.
From Verif Require Import Base UtilModel ExprModel ExprProofs NlpModel SysModel SysSpec SimModel OcpModel LagModel DiscModel
  ColSpec ShoModel ShoSpec GivModel GivSpec GivProofs GivMoreProofs GivReadProofs.
Local Open Scope list_scope.
Local Open Scope nat_scope.

(** In every element the caller names, the values are those asked for: each time once, in
    increasing order, with states and algebraic variables where simulations of the system
    of the element arrive, and controls and functions of them.  The problem is left as it
    is. *)
Theorem C86_values : forall buildable label defaults ty k F integrate env h bps x u p thetas functions groups from_start,
    respects F -> shootable k -> well_sized k h -> breakpoints k = Ok bps ->
    stands_for F k env x u p thetas h ->
    Forall2 (fun es fs => element_functions k bps es = Ok fs) groups functions ->
    forall demands n c n' c' zs shots,
    Forall (fun ew => length (wd_f (snd ew)) = length groups) demands ->
    shoot_elements buildable label defaults ty k bps x u p thetas functions from_start demands (n, c) =
      ((n', c'), Ok (zs, shots)) ->
    computed F integrate defaults env shots ->
    n' = n /\
    Forall2 (fun ew z => given_values F integrate defaults ty label k h (fst ew) from_start groups (snd ew)
      (valued F env (g_x z)) (valued F env (g_y z)) (valued F env (g_u z)) (map (valued F env) (g_f z))) demands zs.
Proof.
  intros buildable label defaults ty k F integrate env h bps x u p thetas functions groups b HF T W Hb D HG.
  exact (shoot_elements_values buildable label defaults ty k F integrate env h HF T W bps x u p thetas functions groups b Hb D HG).
Qed.
Print Assumptions C86_values.

(** Where simulations can be put together, it makes no difference whether each of them
    begins at the beginning of the element or where the one before ended. *)
Theorem C86_flow : forall F integrate defaults ty label k h el, composes integrate defaults ty label k h el ->
    forall groups w x y u f,
    given_values F integrate defaults ty label k h el false groups w x y u f ->
    given_values F integrate defaults ty label k h el true groups w x y u f.
Proof. exact w_C86_flow. Qed.
Print Assumptions C86_flow.

(** At the beginning of an element only the states and the controls of a direct method are
    known: other values there are refused, and so is a function without times. *)
Theorem C86_refused : forall buildable label defaults ty k bps x u p thetas functions from_start demands el w st st' r,
    In (el, w) demands ->
    among (wd_y w) (wd_t0 w) = true \/ (k_direct k = false /\ among (wd_u w) (wd_t0 w) = true) \/
    (exists l, In l (wd_f w) /\ (l = None \/ among l (wd_t0 w) = true)) ->
    shoot_elements buildable label defaults ty k bps x u p thetas functions from_start demands st <> (st', Ok r).
Proof. exact w_C86_refused. Qed.
Print Assumptions C86_refused.

(** What is asked for when the controls of a solution are read: in every element, from its
    beginning to its end, the controls at the control points and nothing else. *)
Theorem C86_reading : forall k points bps, breakpoints k = Ok bps ->
    control_reading bps (interpolation_times (step_size k) bps (control_taus points k)) (k_elements k) =
    Ok (map (fun el => (el, mkDemand (boundary k el) (boundary k (S el)) None None
                              (Some (map (fun tau => boundary k el + step_size k * tau)%Q (control_taus points k))) []))
            (seq 0 (k_elements k))).
Proof. exact w_C86_reading. Qed.
Print Assumptions C86_reading.

(** The cart, whose control is constant in every element. *)
Example cart_reading : exists k bps, limited_cart = Ok k /\ breakpoints k = Ok bps /\
    option_map (map (fun ew => (fst ew, Qred (wd_t0 (snd ew)), Qred (wd_tf (snd ew)),
                                option_map (map Qred) (wd_u (snd ew)))))
      (match control_reading bps (interpolation_times (step_size k) bps (control_taus (fun _ => [1%Q]) k)) 2 with
       | Ok d => Some d | Raise _ => None end) =
    Some [(0, 0%Q, 5%Q, Some [0%Q]); (1, 5%Q, 10%Q, Some [5%Q])].
Proof. eexists. eexists. split; [vm_compute; reflexivity|]. split; vm_compute; reflexivity. Qed.

(** So the controls of an indirect method of degree 1 can never be read from a solution. *)
Theorem C86_indirect_controls_refuted : forall buildable label defaults ty k points bps x u p thetas demands st st' r,
    k_direct k = false -> k_degree_control k = 1 -> k_elements k <> 0 -> breakpoints k = Ok bps ->
    control_reading bps (interpolation_times (step_size k) bps (control_taus points k)) (k_elements k) = Ok demands ->
    shoot_elements buildable label defaults ty k bps x u p thetas [] false demands st <> (st', Ok r).
Proof. exact w_C86_indirect_controls_refuted. Qed.
Print Assumptions C86_indirect_controls_refuted.

(** The cart in its second element, with an integrator that adds 1 to the position: states
    at 5, 7 and 10, the algebraic variable at 6, the control at 5 and 7, and the sum of the
    position and the algebraic variable at 6 and 10. *)
Example cart_at_times : exists k bps fns z, limited_cart = Ok k /\ shootable k /\ breakpoints k = Ok bps /\
    element_functions k bps cart_group = Ok fns /\ well_sized k cart_values /\
    forall from_start, exists shots, let env := cart_env (cart_later from_start) in
      shoot_elements any_integrator one_name [] "implicit" k bps cart_x cart_u cart_p cart_thetas [fns] from_start
        [(1, cart_points)] (nlp_init, 1000) = ((nlp_init, 1012), Ok ([z], shots)) /\
      stands_for (fun _ x => x) k env cart_x cart_u cart_p cart_thetas cart_values /\
      computed (fun _ x => x) counting [] env shots /\
      valued (fun _ x => x) env (g_x z) = (if from_start then [[7; 1; 0]; [8; 1; 0]; [8; 1; 0]] else [[7; 1; 0]; [9; 1; 0]; [10; 1; 0]])%Q /\
      valued (fun _ x => x) env (g_y z) = [[2]]%Q /\
      valued (fun _ x => x) env (g_u z) = [[1 # 2]; [1 # 2]]%Q /\
      map (valued (fun _ x => x) env) (g_f z) = (if from_start then [[[10]; [10]]] else [[[10]; [12]]])%Q.
Proof. exact w_cart_at_times. Qed.

(** Simulations of the cart at rest can be put together. *)
Example resting_cart_composes : exists k, limited_cart = Ok k /\ forall el, composes resting [] "implicit" one_name k cart_values el.
Proof. exact w_resting_cart_composes. Qed.

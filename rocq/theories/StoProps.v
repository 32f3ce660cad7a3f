(** Properties of stochastic problems and of the polynomial chaos basis. *)
From Coq Require Import String Factorial.
From Verif Require Import Base ExprModel SysModel OcpModel StoModel StoSpec StoProofs StoBasisProofs.
Local Open Scope list_scope.

(** ** C51 *)

(** The exponents used, together with the one for the constant: one per tuple of total
    degree at most [order], and C(n + order, order) of them, which is the size of the basis. *)
Theorem C51_exponents : forall n order e,
    In e (repeat 0 n :: exponents n order) <-> length e = n /\ degree_sum e <= order.
Proof. exact exponents_in. Qed.
Print Assumptions C51_exponents.
Theorem C51_each_once : forall n order, NoDup (repeat 0 n :: exponents n order).
Proof. exact exponents_nodup. Qed.
Print Assumptions C51_each_once.
Theorem C51_count : forall n order,
    length (repeat 0 n :: exponents n order) * (fact n * fact order) = fact (n + order) /\
    n_pol_parameters n order = length (repeat 0 n :: exponents n order).
Proof. exact basis_count. Qed.
Print Assumptions C51_count.
Example two_of_two : repeat 0 2 :: exponents 2 2 = [[0; 0]; [0; 1]; [0; 2]; [1; 0]; [1; 1]; [2; 0]] /\ n_pol_parameters 2 2 = 6.
Proof. split; reflexivity. Qed.

(** Up to order nine each basis function is the product of Hermite polynomials of its
    exponents. *)
Theorem C51_hermite : forall n order x, order <= 9 -> length x = n ->
    exists psi, basis n order x = Ok psi /\
      Forall2 (fun e v => v == hermite_product e x)%Q (repeat 0 n :: exponents n order) psi.
Proof. exact basis_value. Qed.
Print Assumptions C51_hermite.
Example basis_two : exists a b c d e f, basis 2 2 [2; 3]%Q = Ok [a; b; c; d; e; f] /\
    (a == 1 /\ b == 3 /\ c == 8 /\ d == 2 /\ e == 6 /\ f == 3)%Q.
Proof. repeat eexists. Qed.
(** The polynomials meant: He_0 = 1, He_1 = x, He_(n+2) = x He_(n+1) - (n+1) He_n. *)
Theorem C51_recurrence : forall n x, (hermite 0 x == 1)%Q /\ (hermite 1 x == x)%Q /\
    (hermite (S (S n)) x == x * hermite (S n) x - inject_Z (Z.of_nat (S n)) * hermite n x)%Q.
Proof. exact hermite_recurrence. Qed.
Print Assumptions C51_recurrence.

(** Order ten: the polynomial of degree ten is not the Hermite polynomial. *)
Theorem C51_order_ten_refuted : exists psi v, basis 1 10 [1%Q] = Ok psi /\ nth_error psi 10 = Some v /\
    nth_error (repeat 0 1 :: exponents 1 10) 10 = Some [10] /\ ~ (v == hermite_product [10%nat] [1])%Q.
Proof. exact order_ten. Qed.
Print Assumptions C51_order_ten_refuted.
(** Above, there is no basis at all. *)
Theorem C51_high_order_refuted : forall n order x, 10 < order -> 0 < n -> length x = n -> basis n order x = Raise IndexError.
Proof. exact high_order. Qed.
Print Assumptions C51_high_order_refuted.

(** ** C52 *)

(** After any calls, each caught on its own: mean, covariance and distributions are those of
    the groups of quantities declared with fitting sizes, in order, independent of each other;
    the chance constraints are those with fitting sizes; the problem itself is as if only the
    calls on it had been made. *)
Theorem C52_history : forall same o ops,
    let s := run_caught (socp_step same) ops (new_socp o) in
    describes (parameter_groups ops) (s_p_unc s) (s_p_mean s) (s_p_cov s) (s_p_dist s) /\
    describes (initial_groups ops) (s_ic s) (s_ic_mean s) (s_ic_cov s) (s_ic_dist s) /\
    s_ineq s = flat_map (fun c => fst (fst c)) (chances ops) /\
    s_rhs s = flat_map (fun c => snd (fst c)) (chances ops) /\
    s_prob s = flat_map snd (chances ops) /\ length (s_rhs s) = length (s_ineq s) /\
    s_problem s = run_caught (ocp_step same) (problem_calls ops) o.
Proof. exact stochastic_history. Qed.
Print Assumptions C52_history.
Theorem C52_symmetric : forall gs, (forall g, In g gs -> forall i j, entry (g_cov g) i j = entry (g_cov g) j i) ->
    forall i j, cov_at gs i j = cov_at gs j i.
Proof. exact cov_symmetric. Qed.
Print Assumptions C52_symmetric.
(** Three groups; one call is refused for its sizes. *)
Example leaky_tank : exists s, leaky [] = Ok s /\ s_p_unc s = [20; 21; 23] /\ s_p_mean s = [1; 2; 3]%Q /\
    s_p_cov s = [[4; 2; 0]; [2; 10; 0]; [0; 0; 25]]%Q /\ s_ic_cov s = [[16]]%Q /\ s_ineq s = [EVar 10] /\
    m_p (o_model (s_problem s)) = [20; 21; 23].
Proof. eexists. repeat split; vm_compute; reflexivity. Qed.

(** Wrong sizes are refused and change nothing. *)
Theorem C52_parameter_refused : forall a m c d s, ~ sound (mkGroup a m c d) ->
    set_parameter_as_uncertain_parameter a m c d s = (s, Raise ValueError).
Proof. exact parameter_refused. Qed.
Print Assumptions C52_parameter_refused.
Theorem C52_initial_refused : forall a m c d s, ~ sound (mkGroup a m c d) ->
    set_initial_condition_as_uncertain a m c d s = (s, Raise ValueError).
Proof. exact initial_refused. Qed.
Print Assumptions C52_initial_refused.
Theorem C52_chance_refused : forall g prob r w s, length g <> length r ->
    include_time_chance_inequality g prob (Some r) w s = (s, Raise ValueError).
Proof. exact chance_refused. Qed.
Print Assumptions C52_chance_refused.
(** A refused inclusion, though, leaves the parameter in the model. *)
Theorem C52_include_refuted : forall a m c d s, ~ sound (mkGroup a m c d) -> a <> [] ->
    exists s', include_uncertain_parameter a m c d s = (s', Raise ValueError) /\ s' <> s /\
      m_p (o_model (s_problem s')) = m_p (o_model (s_problem s)) ++ a /\ s_p_unc s' = s_p_unc s.
Proof. exact include_refused. Qed.
Print Assumptions C52_include_refuted.
(** A chance constraint takes any number of probabilities, and the time it is for is ignored. *)
Theorem C52_probabilities_refuted : forall g prob r w s, length g = length r ->
    exists s', include_time_chance_inequality g prob (Some r) w s = (s', Ok tt) /\
      n_g_stochastic s' = n_g_stochastic s + length g /\ length (s_prob s') = length (s_prob s) + length prob.
Proof. exact chance_any. Qed.
Print Assumptions C52_probabilities_refuted.
Theorem C52_when_refuted : forall g prob r w w' s,
    include_time_chance_inequality g prob r w s = include_time_chance_inequality g prob r w' s.
Proof. exact chance_when. Qed.
Print Assumptions C52_when_refuted.
(** The questions where the uncertain quantities are among the variables are never answered:
    they ask the model for attributes it does not have. *)
Theorem C52_indices_refuted : forall s, get_p_unc_indices s = Raise AttributeError /\
    get_p_without_p_unc s = Raise AttributeError /\ get_uncertain_initial_cond_indices s = Raise AttributeError.
Proof. exact indices_never. Qed.
Print Assumptions C52_indices_refuted.

(** ** C71 *)

(** Each sample is the mean plus R'z, for R'R the covariance of all groups and z one of the
    samples of the standard normal distribution. *)
Theorem C71_samples : forall normal chol v samples gp gi,
    let s := v_socp v in
    describes gp (s_p_unc s) (s_p_mean s) (s_p_cov s) (s_p_dist s) ->
    describes gi (s_ic s) (s_ic_mean s) (s_ic_cov s) (s_ic_dist s) ->
    (forall C R, chol C = Ok R -> factor_of (length C) R C) ->
    (forall k R, chol (eye k) = Ok R -> is_identity k R) ->
    let n := n_uncertain s in
    Forall (fun z => length z = n) (normal n (v_samples v)) ->
    sample_parameters normal chol v = Ok samples ->
    exists C R, square n C /\ (forall i j, i < n -> j < n -> entry C i j = cov_at (gp ++ gi) i j) /\ factor_of n R C /\
      Forall2 (fun z x => length x = n /\ forall i, i < n ->
                 (nth i x 0 == nth i (flat_map g_mean (gp ++ gi)) 0 + qsum_to n (fun k => entry R k i * nth k z 0))%Q)
              (normal n (v_samples v)) samples.
Proof. exact samples_of. Qed.
Print Assumptions C71_samples.
Example leaky_factors : (forall C R, leaky_chol C = Ok R -> factor_of (length C) R C) /\
    (forall k R, leaky_chol (eye k) = Ok R -> is_identity k R).
Proof. exact leaky_chol_ok. Qed.
Example leaky_samples : exists s, leaky [] = Ok s /\ n_uncertain s = 4 /\
    describes (parameter_groups leaky_ops) (s_p_unc s) (s_p_mean s) (s_p_cov s) (s_p_dist s) /\
    describes (initial_groups leaky_ops) (s_ic s) (s_ic_mean s) (s_ic_cov s) (s_ic_dist s) /\
    Forall (fun z => length z = 4) (leaky_normal 4 2) /\
    sample_parameters leaky_normal leaky_chol (new_converter s 2 (Some 2)) = Ok [[3; 9; 18; 21]; [3; 9; 18; 21]]%Q /\
    v_samples (new_converter s 2 None) = 15.
Proof. exact leaky_sampled. Qed.

(** Without uncertain quantities, or with one that is not normal, there are no samples. *)
Theorem C71_refused : forall normal chol v,
    (n_uncertain (v_socp v) = 0 -> sample_parameters normal chol v = Raise ValueError) /\
    (n_uncertain (v_socp v) <> 0 -> Exists (fun d => d <> "normal"%string) (s_p_dist (v_socp v) ++ s_ic_dist (v_socp v)) ->
     sample_parameters normal chol v = Raise NotImplementedErr).
Proof. exact samples_refused. Qed.
Print Assumptions C71_refused.

(** Converting never gives a problem: once sampled, it stops at an attribute the model does
    not have. *)
Theorem C71_conversion_refuted : forall normal chol v,
    exists v' e, convert normal chol v = (v', Raise e) /\ v_socp v' = v_socp v.
Proof. exact convert_never. Qed.
Print Assumptions C71_conversion_refuted.
Theorem C71_conversion_attribute : forall normal chol v samples, sample_parameters normal chol v = Ok samples ->
    snd (convert normal chol v) = Raise AttributeError /\ v_sampled (fst (convert normal chol v)) = Some samples.
Proof. exact convert_attribute. Qed.
Print Assumptions C71_conversion_attribute.

(** Model of yaocptool/modelling/stochastic_ocp.py (stochastic problems) and of
    yaocptool/stochastic/pce.py (polynomial chaos: the converter and the basis). *)
From Coq Require Import String Factorial.
From Verif Require Import Base UtilModel ExprModel NlpModel SysModel SimModel OcpModel.
Local Open Scope list_scope.
Local Open Scope cmd_scope.

(** A numeric matrix as its rows.  Matrices without rows but with columns do not occur. *)
Definition matrix := list (list Q).
Definition columns (M : matrix) : nat := match M with r :: _ => length r | [] => 0 end.
(** [M.shape == (n, n)], for a matrix whose rows have the same length. *)
Definition shape_is (n : nat) (M : matrix) : bool :=
  (length M =? n) && forallb (fun r => length r =? n) M.
(** casadi [diagcat]. *)
Definition diagcat (A B : matrix) : matrix :=
  map (fun r => r ++ repeat 0%Q (columns B)) A ++ map (fun r => repeat 0%Q (columns A) ++ r) B.

(** stochastic_ocp.py:11-26 [__init__]: the attributes, besides those of the problem. *)
Record socp := mkSocp
  { s_problem : ocp;
    s_ineq : list expr; s_rhs : list Q; s_prob : list Q;
    s_p_unc : list sym; s_p_mean : list Q; s_p_cov : matrix; s_p_dist : list string;
    s_ic : list sym; s_ic_mean : list Q; s_ic_cov : matrix; s_ic_dist : list string }.
Definition new_socp (o : ocp) : socp := mkSocp o [] [] [] [] [] [] [] [] [] [] [].

Definition set_s_problem v s := mkSocp v (s_ineq s) (s_rhs s) (s_prob s) (s_p_unc s) (s_p_mean s)
  (s_p_cov s) (s_p_dist s) (s_ic s) (s_ic_mean s) (s_ic_cov s) (s_ic_dist s).
Definition set_s_ineq v s := mkSocp (s_problem s) v (s_rhs s) (s_prob s) (s_p_unc s) (s_p_mean s)
  (s_p_cov s) (s_p_dist s) (s_ic s) (s_ic_mean s) (s_ic_cov s) (s_ic_dist s).
Definition set_s_rhs v s := mkSocp (s_problem s) (s_ineq s) v (s_prob s) (s_p_unc s) (s_p_mean s)
  (s_p_cov s) (s_p_dist s) (s_ic s) (s_ic_mean s) (s_ic_cov s) (s_ic_dist s).
Definition set_s_prob v s := mkSocp (s_problem s) (s_ineq s) (s_rhs s) v (s_p_unc s) (s_p_mean s)
  (s_p_cov s) (s_p_dist s) (s_ic s) (s_ic_mean s) (s_ic_cov s) (s_ic_dist s).
Definition set_s_p_unc v s := mkSocp (s_problem s) (s_ineq s) (s_rhs s) (s_prob s) v (s_p_mean s)
  (s_p_cov s) (s_p_dist s) (s_ic s) (s_ic_mean s) (s_ic_cov s) (s_ic_dist s).
Definition set_s_p_mean v s := mkSocp (s_problem s) (s_ineq s) (s_rhs s) (s_prob s) (s_p_unc s) v
  (s_p_cov s) (s_p_dist s) (s_ic s) (s_ic_mean s) (s_ic_cov s) (s_ic_dist s).
Definition set_s_p_cov v s := mkSocp (s_problem s) (s_ineq s) (s_rhs s) (s_prob s) (s_p_unc s)
  (s_p_mean s) v (s_p_dist s) (s_ic s) (s_ic_mean s) (s_ic_cov s) (s_ic_dist s).
Definition set_s_p_dist v s := mkSocp (s_problem s) (s_ineq s) (s_rhs s) (s_prob s) (s_p_unc s)
  (s_p_mean s) (s_p_cov s) v (s_ic s) (s_ic_mean s) (s_ic_cov s) (s_ic_dist s).
Definition set_s_ic v s := mkSocp (s_problem s) (s_ineq s) (s_rhs s) (s_prob s) (s_p_unc s)
  (s_p_mean s) (s_p_cov s) (s_p_dist s) v (s_ic_mean s) (s_ic_cov s) (s_ic_dist s).
Definition set_s_ic_mean v s := mkSocp (s_problem s) (s_ineq s) (s_rhs s) (s_prob s) (s_p_unc s)
  (s_p_mean s) (s_p_cov s) (s_p_dist s) (s_ic s) v (s_ic_cov s) (s_ic_dist s).
Definition set_s_ic_cov v s := mkSocp (s_problem s) (s_ineq s) (s_rhs s) (s_prob s) (s_p_unc s)
  (s_p_mean s) (s_p_cov s) (s_p_dist s) (s_ic s) (s_ic_mean s) v (s_ic_dist s).
Definition set_s_ic_dist v s := mkSocp (s_problem s) (s_ineq s) (s_rhs s) (s_prob s) (s_p_unc s)
  (s_p_mean s) (s_p_cov s) (s_p_dist s) (s_ic s) (s_ic_mean s) (s_ic_cov s) v.

(** Run a method of the problem. *)
Definition on_problem {A : Type} (c : cmd ocp A) : cmd socp A :=
  fun s => match c (s_problem s) with (o, r) => (set_s_problem o s, r) end.

(** stochastic_ocp.py:28-38. *)
Definition n_p_unc (s : socp) : nat := length (s_p_unc s).
Definition n_g_stochastic (s : socp) : nat := length (s_ineq s).
Definition n_uncertain_initial_condition (s : socp) : nat := length (s_ic s).

(** stochastic_ocp.py:57-81 [set_parameter_as_uncertain_parameter].  The workaround of
    lines 77-80 avoids a defect of [diagcat] for empty matrices. *)
Definition set_parameter_as_uncertain_parameter (par : list sym) (mean : list Q) (cov : matrix)
    (distribution : string) : cmd socp unit :=
  cguard (fun _ => negb (length par =? length mean)) ValueError ;;;
  cguard (fun _ => negb (shape_is (length mean) cov)) ValueError ;;;
  cmodify (fun s => set_s_p_unc (s_p_unc s ++ par) s) ;;;
  cmodify (fun s => set_s_p_mean (s_p_mean s ++ mean) s) ;;;
  cmodify (fun s => match s_p_cov s with
                    | [] => set_s_p_cov cov s
                    | _ => set_s_p_cov (diagcat (s_p_cov s) cov) s
                    end) ;;;
  cmodify (fun s => set_s_p_dist (s_p_dist s ++ repeat distribution (length par)) s).

(** stochastic_ocp.py:40-55 [create_uncertain_parameter], [include_uncertain_parameter]; the
    created symbols are an argument. *)
Definition include_uncertain_parameter (par : list sym) (mean : list Q) (cov : matrix)
    (distribution : string) : cmd socp unit :=
  on_problem (on_model (include_parameter par)) ;;;
  set_parameter_as_uncertain_parameter par mean cov distribution.

(** stochastic_ocp.py:83-118 [set_initial_condition_as_uncertain]. *)
Definition set_initial_condition_as_uncertain (par : list sym) (mean : list Q) (cov : matrix)
    (distribution : string) : cmd socp unit :=
  cguard (fun _ => negb (length par =? length mean)) ValueError ;;;
  cguard (fun _ => negb (shape_is (length mean) cov)) ValueError ;;;
  cmodify (fun s => set_s_ic (s_ic s ++ par) s) ;;;
  cmodify (fun s => set_s_ic_mean (s_ic_mean s ++ mean) s) ;;;
  cmodify (fun s => set_s_ic_dist (s_ic_dist s ++ repeat distribution (length par)) s) ;;;
  cmodify (fun s => match cov, s_ic_cov s with
                    | _ :: _, _ :: _ => set_s_ic_cov (diagcat (s_ic_cov s) cov) s
                    | _ :: _, [] => set_s_ic_cov cov s
                    | [], _ => s
                    end).

(** The vectors of symbols a system model has as attributes (system_model.py:38-124 and the
    four mixins); any other name is not an attribute. *)
Definition model_vector (name : string) (m : model) : res (list sym) :=
  if (name =? "x")%string then Ok (m_x m)
  else if (name =? "x_0")%string then Ok (m_x_0 m)
  else if (name =? "y")%string then Ok (m_y m)
  else if (name =? "u")%string then Ok (m_u m)
  else if (name =? "u_par")%string then Ok (m_u_par m)
  else if (name =? "p")%string then Ok (m_p m)
  else if (name =? "theta")%string then Ok (m_theta m)
  else if (name =? "t_sym")%string then Ok [m_t m]
  else if (name =? "tau_sym")%string then Ok [m_tau m]
  else Raise AttributeError.

(** stochastic_ocp.py:125-131 [get_p_unc_indices], [get_uncertain_initial_cond_indices] and
    120-123 [get_p_without_p_unc]. *)
Definition get_p_unc_indices (s : socp) : res (list nat) :=
  bind (model_vector "p_sym" (o_model (s_problem s))) (fun p => Ok (find_syms (s_p_unc s) p)).
Definition get_uncertain_initial_cond_indices (s : socp) : res (list nat) :=
  bind (model_vector "x_0_sym" (o_model (s_problem s))) (fun x_0 => Ok (find_syms (s_ic s) x_0)).
Definition get_p_without_p_unc (s : socp) : res (list sym) :=
  bind (get_p_unc_indices s) (fun idx =>
  bind (model_vector "p_sym" (o_model (s_problem s))) (fun p => remove_at idx p)).

(** stochastic_ocp.py:133-178 [include_time_chance_inequality].  Lists, columns and numbers
    are not distinguished.  Lines 166 and 171 make the same comparison; [when] is not used. *)
Definition include_time_chance_inequality (ineq : list expr) (prob : list Q) (rhs : option (list Q))
    (when : string) : cmd socp unit :=
  let rhs := match rhs with Some v => v | None => repeat 0%Q (length ineq) end in
  cguard (fun _ => negb (length ineq =? length rhs)) ValueError ;;;
  cguard (fun _ => negb (length ineq =? length rhs)) ValueError ;;;
  cmodify (fun s => set_s_ineq (s_ineq s ++ ineq) s) ;;;
  cmodify (fun s => set_s_rhs (s_rhs s ++ rhs) s) ;;;
  cmodify (fun s => set_s_prob (s_prob s ++ prob) s).

(** ** The calls a user can make on a stochastic problem *)
Inductive socp_op : Type :=
| SIncludeUncertain (par : list sym) (mean : list Q) (cov : matrix) (distribution : string)
| SSetUncertain (par : list sym) (mean : list Q) (cov : matrix) (distribution : string)
| SSetInitial (par : list sym) (mean : list Q) (cov : matrix) (distribution : string)
| SChance (ineq : list expr) (prob : list Q) (rhs : option (list Q)) (when : string)
| SProblem (op : ocp_op).
Definition socp_step (same : expr -> expr -> bool) (op : socp_op) : cmd socp unit :=
  match op with
  | SIncludeUncertain par mean cov d => include_uncertain_parameter par mean cov d
  | SSetUncertain par mean cov d => set_parameter_as_uncertain_parameter par mean cov d
  | SSetInitial par mean cov d => set_initial_condition_as_uncertain par mean cov d
  | SChance ineq prob rhs when => include_time_chance_inequality ineq prob rhs when
  | SProblem op => on_problem (ocp_step same op)
  end.

(** ** Sampling *)

(** casadi products of a matrix (as rows) with a vector, and of its transpose. *)
Definition dot (a b : list Q) : Q := fold_right Qplus 0%Q (map (fun ab => fst ab * snd ab)%Q (combine a b)).
Definition mat_vec (M : matrix) (v : list Q) : list Q := map (fun r => dot r v) M.
Definition transpose (M : matrix) : matrix :=
  map (fun j => map (fun r => nth j r 0%Q) M) (seq 0 (columns M)).
Definition add_vec (a b : list Q) : list Q := map (fun ab => fst ab + snd ab)%Q (combine a b).
Definition eye (n : nat) : matrix :=
  map (fun i => map (fun j => if (i =? j) then 1%Q else 0%Q) (seq 0 n)) (seq 0 n).

Section Sampling.
  (** [normal n k]: the [k] columns of [n] values that the Sobol generator and the inverse
      distribution function of the normal distribution give; [chol]: casadi's upper triangular
      Cholesky factor. *)
  Variable normal : nat -> nat -> list (list Q).
  Variable chol : matrix -> res matrix.

  (** stochastic/util.py:9-34 [sample_parameter_normal_distribution_with_sobol]: the columns
      of the result. *)
  Definition sample_normal (mean : list Q) (cov : matrix) (n_samples : nat) : res (list (list Q)) :=
    bind (chol cov) (fun R =>
      Ok (map (fun z => add_vec mean (mat_vec (transpose R) z)) (normal (length mean) n_samples))).

  (** pce.py:30-57 [PCEConverter.__init__] without keyword arguments, and [sampled_parameters]. *)
  Record converter := mkConverter
    { v_socp : socp; v_order : nat; v_samples : nat; v_sampled : option (list (list Q)) }.

  (** pce.py:59-69 [n_uncertain], [n_pol_parameters].  Python divides in floating point and
      then cuts to an integer; here the division is exact. *)
  Definition n_uncertain (s : socp) : nat := n_p_unc s + n_uncertain_initial_condition s.
  Definition n_pol_parameters (n order : nat) : nat := fact (n + order) / (fact n * fact order).
  Definition new_converter (s : socp) (order : nat) (n_samples : option nat) : converter :=
    mkConverter s order (match n_samples with Some k => k | None => n_pol_parameters (n_uncertain s) order end) None.

  (** pce.py:71-115 [_sample_parameters]. *)
  Definition sample_parameters (v : converter) : res (list (list Q)) :=
    let s := v_socp v in
    let mean := s_p_mean s ++ s_ic_mean s in
    bind (match n_p_unc s, n_uncertain_initial_condition s with
          | S _, S _ => Ok (diagcat (s_p_cov s) (s_ic_cov s))
          | S _, 0 => Ok (s_p_cov s)
          | 0, S _ => Ok (s_ic_cov s)
          | 0, 0 => Raise ValueError
          end) (fun cov =>
    if forallb (String.eqb "normal") (s_p_dist s ++ s_ic_dist s) then
      bind (sample_normal (repeat 0%Q (length mean)) (eye (length cov)) (v_samples v)) (fun eps =>
      bind (chol cov) (fun R =>
        Ok (map (fun z => add_vec mean (mat_vec (transpose R) z)) eps)))
    else Raise NotImplementedErr).

  (** pce.py:144-169 [convert_socp_to_ocp_with_pce]: sampling, then [_create_model]
      (372-376), whose first use of the model is its attribute [u_sym].  Nothing after it is
      modelled. *)
  Definition convert (v : converter) : converter * res ocp :=
    match sample_parameters v with
    | Raise e => (v, Raise e)
    | Ok samples =>
        let v := mkConverter (v_socp v) (v_order v) (v_samples v) (Some samples) in
        match model_vector "u_sym" (o_model (s_problem (v_socp v))) with
        | Raise e => (v, Raise e)
        | Ok _ => (v, Raise NotImplementedErr)
        end
    end.
End Sampling.

(** ** The polynomial basis *)

(** pce.py:478-515 [helist]: the tabulated polynomials. *)
Definition hermite_table : list (Q -> Q) :=
  [ (fun x => 1);
    (fun x => x);
    (fun x => x ^ 2 - 1);
    (fun x => x ^ 3 - 3 * x);
    (fun x => x ^ 4 - 6 * x ^ 2 + 3);
    (fun x => x ^ 5 - 10 * x ^ 3 + 15 * x);
    (fun x => x ^ 6 - 15 * x ^ 4 + 45 * x ^ 2 - 15);
    (fun x => x ^ 7 - 21 * x ^ 5 + 105 * x ^ 3 - 105 * x);
    (fun x => x ^ 8 - 28 * x ^ 6 + 210 * x ^ 4 - 420 * x ^ 2 + 105);
    (fun x => x ^ 9 - 36 * x ^ 7 + 378 * x ^ 5 - 1260 * x ^ 3 + 945 * x);
    (fun x => x ^ 10 - 45 * x ^ 8 + 640 * x ^ 6 - 3150 * x ^ 4 + 4725 * x ^ 2 - 945) ]%Q.

(** itertools.product(range(k), repeat=n): the last entry moves fastest. *)
Fixpoint product_range (k n : nat) : list (list nat) :=
  match n with
  | 0 => [[]]
  | S n' => flat_map (fun e => map (cons e) (product_range k n')) (seq 0 k)
  end.

(** pce.py:519-525: the exponents; [next] drops the first. *)
Definition exponents (n order : nat) : list (list nat) :=
  tl (filter (fun p => fold_right Nat.add 0 p <=? order) (product_range (order + 1) n)).

(** pce.py:533-535: the product over the uncertain quantities; a missing polynomial is an
    IndexError. *)
Fixpoint basis_product (e : list nat) (x : list Q) : res Q :=
  match e, x with
  | d :: e', v :: x' =>
      match nth_error hermite_table d with
      | Some h => bind (basis_product e' x') (fun r => Ok (h v * r)%Q)
      | None => Raise IndexError
      end
  | _, _ => Ok 1%Q
  end.

(** pce.py:527-536: [psi] at the point [x].  The vector has [n_pol_parameters] ones; entry
    [i + 1] is multiplied by the product of the exponents number [i], which casadi refuses if
    the vector is too short. *)
Fixpoint fill (psi : list Q) (es : list (list nat)) (x : list Q) : res (list Q) :=
  match es, psi with
  | [], _ => Ok psi
  | e :: es', one :: psi' =>
      bind (basis_product e x) (fun v => bind (fill psi' es' x) (fun r => Ok ((one * v)%Q :: r)))
  | _ :: _, [] => Raise CasadiError
  end.
Definition basis (n order : nat) (x : list Q) : res (list Q) :=
  match repeat 1%Q (n_pol_parameters n order) with
  | one :: rest => bind (fill rest (exponents n order) x) (fun r => Ok (one :: r))
  | [] => match exponents n order with [] => Ok [] | _ => Raise CasadiError end
  end.

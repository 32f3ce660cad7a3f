(** Specification vocabulary for the augmented Lagrangian method. *)
From Coq Require Import String Qabs.
From Verif Require Import Base UtilModel ExprModel NlpModel NlpSpec SysModel SysSpec OcpModel OcpSpec
  LagSpec DiscModel DiscSpec ColSpec AugModel.
Local Open Scope list_scope.

(** ** The penalty *)

(** Sum of weighted products: sum of a_i * b_i. *)
Fixpoint dot (a b : list Q) : Q :=
  match a, b with x :: a', y :: b' => (x * y + dot a' b')%Q | _, _ => 0%Q end.
(** nu' g + 1/2 sum of mu_i g_i^2. *)
Definition penalty_value (nu mu g : list Q) : Q :=
  (dot nu g + (1 # 2) * dot mu (map (fun x => x * x) g))%Q.

(** Half the weighted sum of squares of g_i + nu_i / mu_i, and minus half the sum of
    nu_i^2 / mu_i. *)
Fixpoint half_squares (nu mu g : list Q) : Q :=
  match nu, mu, g with
  | n :: nu', m :: mu', x :: g' => ((1 # 2) * m * ((x + n / m) * (x + n / m)) + half_squares nu' mu' g')%Q
  | _, _, _ => 0%Q
  end.
Fixpoint least_penalty (nu mu : list Q) : Q :=
  match nu, mu with
  | n :: nu', m :: mu' => (- (n * n / (2 * m)) + least_penalty nu' mu')%Q
  | _, _ => 0%Q
  end.

(** ** Reading trajectories off a solution *)

(** The trajectory whose polynomials go through the decision variables [r], with the
    parameters [p] and, in each element, [th]. *)
Record reads (k : method) (pts : list Q) (r : traj Q) (p : list Q) (th : nat -> list Q) (q : trajectory)
  : Prop := mkReads
  { rd_x : forall el i, (el < k_elements k)%nat -> (i < length (m_x (k_model k)))%nat ->
      (length (q_x q el i) <= S (length pts))%nat /\
      forall j tau v, nth_error (0%Q :: pts) j = Some tau -> entry (r_x r) el j i = Some v ->
        (poly (q_x q el i) tau == v)%Q;
    rd_y : forall el i, (el < k_elements k)%nat -> (i < length (m_y (k_model k)))%nat ->
      (length (q_y q el i) <= length pts)%nat /\
      forall j tau v, nth_error pts j = Some tau -> entry (r_y r) el j i = Some v ->
        (poly (q_y q el i) tau == v)%Q;
    rd_u : forall el l, nth_error (r_u r) el = Some l -> q_u q el = concat l;
    rd_p : q_p q = p;
    rd_theta : forall el, (el < k_elements k)%nat -> q_theta q el = th el;
    rd_x0 : length (q_x0 q) = length (m_x_0 (k_model k));
    rd_eta : q_eta q = r_eta r }.

(** The value of an equation at relative time [tau] of an element; the controls are what
    their approximation gives there. *)
Definition value_on (F : nat -> Q -> Q) (k : method) (q : trajectory) (el : nat) (tau : Q) (e : expr) : Q :=
  let at_tau := at_point k q el tau in
  eval F (assign at_tau (m_u (k_model k)) (map (eval F at_tau) (m_u_expr (k_model k)))) e.

(** ** Relaxed problems ready to be solved *)

Definition relaxed_equations (a : augmented) : list expr := ag_alg a ++ ag_eq a.
Definition relaxed_count (a : augmented) : nat := length (relaxed_equations a).

(** The last parameters of the problem are the weights, one for each relaxed equation; the
    last element-wise parameters are the values of the multipliers at the collocation
    points [pts], point by point; the others are the caller's. *)
Record carries (F : nat -> Q -> Q) (pts : list Q) (a : augmented) (own_p own_theta : list sym) : Prop := mkCarries
  { ca_variables : NoDup (ag_variables a);
    ca_decided : o_p_opt (k_problem (ag_method a)) = [] /\ o_theta_opt (k_problem (ag_method a)) = [];
    ca_mu : m_p (k_model (ag_method a)) = own_p ++ ag_mu_sym a;
    ca_weights : length (ag_mu_sym a) = relaxed_count a;
    ca_nu : exists par, m_theta (k_model (ag_method a)) = own_theta ++ par /\
      length par = (relaxed_count a * length pts)%nat /\ length (ag_nu_pol a) = relaxed_count a /\
      forall env i j tau e s, nth_error pts j = Some tau -> nth_error (ag_nu_pol a) i = Some e ->
        nth_error par (j * relaxed_count a + i) = Some s ->
        (env (m_tau (k_model (ag_method a))) == tau)%Q -> (eval F env e == env s)%Q }.

(** Element-wise parameters of the caller, and multipliers. *)
Definition given_in (th : option (theta Q)) (el : nat) : list Q :=
  match th with
  | Some d => match dget Nat.eqb el d with Some v => v | None => [] end
  | None => []
  end.
Definition given_p (p : option (list Q)) : list Q := match p with Some v => v | None => [] end.
(** The multiplier of equation [i] at collocation point [j] of an element, [n] equations. *)
Definition multiplier (d : theta Q) (n el j i : nat) : option Q :=
  match dget Nat.eqb el d with Some v => nth_error v (j * n + i) | None => None end.
(** Parameters and multipliers have the sizes of the problem. *)
Record fitting (a : augmented) (own_p own_theta : list sym) (s : aug_state) (p : option (list Q))
    (th : option (theta Q)) : Prop := mkFitting
  { fi_p : length (given_p p) = length own_p;
    fi_mu : length (st_mu s) = relaxed_count a;
    fi_theta : forall el, (el < k_elements (ag_method a))%nat -> length (given_in th el) = length own_theta;
    fi_nu : forall el, (el < k_elements (ag_method a))%nat ->
      exists v, dget Nat.eqb el (st_nu s) = Some v /\
                length v = (relaxed_count a * k_degree (ag_method a))%nat }.

(** ** One update *)

(** The multipliers of one element, point by point. *)
Definition nu_in (s : aug_state) (el : nat) : list Q :=
  match dget Nat.eqb el (st_nu s) with Some v => v | None => [] end.

(** The dictionary [new] has the multipliers of [s] moved by weight times value. *)
Definition moved (F : nat -> Q -> Q) (pts : list Q) (a : augmented) (q : trajectory) (s : aug_state) (new : theta Q) : Prop :=
  map fst new = seq 0 (k_elements (ag_method a)) /\
  (forall el, (el < k_elements (ag_method a))%nat -> exists v, dget Nat.eqb el new = Some v /\
      length v = (relaxed_count a * k_degree (ag_method a))%nat) /\
  forall el j tau i g w old, (el < k_elements (ag_method a))%nat -> nth_error pts j = Some tau ->
    nth_error (relaxed_equations a) i = Some g -> nth_error (st_mu s) i = Some w ->
    multiplier (st_nu s) (relaxed_count a) el j i = Some old ->
    exists x, multiplier new (relaxed_count a) el j i = Some x /\
      (x == old + w * value_on F (ag_method a) q el tau g)%Q.
(** [errors] has the largest absolute value of each equation over all collocation points. *)
Definition largest (F : nat -> Q -> Q) (pts : list Q) (a : augmented) (q : trajectory) (errors : list Q) : Prop :=
  length errors = relaxed_count a /\
  forall i g err, nth_error (relaxed_equations a) i = Some g -> nth_error errors i = Some err ->
    (forall el tau, (el < k_elements (ag_method a))%nat -> In tau pts -> (Qabs (value_on F (ag_method a) q el tau g) <= err)%Q) /\
    exists el tau, (el < k_elements (ag_method a))%nat /\ In tau pts /\ (err == Qabs (value_on F (ag_method a) q el tau g))%Q.

(** ** Runs *)

(** One pass: the call of the solver, its solution, the violations and the attributes
    before the call and after the update. *)
Record al_step := mkStep
  { as_before : aug_state; as_call : sub_call; as_raw : list Q; as_errors : list Q; as_after : aug_state }.
(** All violations are below the tolerance. *)
Definition below (tol : Q) (errors : list Q) : Prop := Forall (fun e => e < tol)%Q errors.

(** The passes [steps], one after the other: the multipliers computed last become those in
    use; the relaxed problem is solved with the caller's parameters and the weights, the
    caller's element-wise parameters and the multipliers, from the last solution; the
    attributes are updated with its solution; there is a further pass only when some
    violation is not below the tolerance.  [calls]: calls made before, the last first. *)
Section Runs.
  Variables (F : nat -> Q -> Q) (opts : al_options) (f : res update_function) (elements : nat).
  Variable ocp_solve : list sub_call -> res (list Q).
  Variables (p : option (list Q)) (th : option (theta Q)).
  Fixpoint al_run (guess : option (list Q)) (s : aug_state) (calls : list sub_call) (steps : list al_step) : Prop :=
    match steps with
    | [] => True
    | z :: rest =>
        as_before z = take_nu_tilde s /\
        sc_guess (as_call z) = guess /\
        sc_p (as_call z) = given_p p ++ st_mu (as_before z) /\
        (match th with Some d => join_thetas [Some d; Some (st_nu (as_before z))] | None => Ok (st_nu (as_before z)) end)
          = Ok (sc_theta (as_call z)) /\
        ocp_solve (as_call z :: calls) = Ok (as_raw z) /\
        update_parameters F opts f elements p th (as_raw z) (as_before z) = (as_after z, Ok (as_errors z)) /\
        (rest <> [] -> ~ below (al_tol opts) (as_errors z)) /\
        al_run (Some (as_raw z)) (as_after z) (as_call z :: calls) rest
    end.
End Runs.

(** Multipliers of the right sizes, those computed last included. *)
Definition well_sized (a : augmented) (s : aug_state) : Prop :=
  length (st_mu s) = relaxed_count a /\
  (forall el, (el < k_elements (ag_method a))%nat -> exists v, dget Nat.eqb el (st_nu s) = Some v /\
      length v = (relaxed_count a * k_degree (ag_method a))%nat) /\
  (forall d, st_nu_tilde s = Some d -> forall el, (el < k_elements (ag_method a))%nat ->
      exists v, dget Nat.eqb el d = Some v /\ length v = (relaxed_count a * k_degree (ag_method a))%nat).
(** What the caller gives has the sizes of the problem. *)
Definition well_given (a : augmented) (own_p own_theta : list sym) (p : option (list Q)) (th : option (theta Q)) : Prop :=
  length (given_p p) = length own_p /\
  forall el, (el < k_elements (ag_method a))%nat -> length (given_in th el) = length own_theta.
(** The parameters of one element in a call. *)
Definition theta_in (c : sub_call) (el : nat) : list Q :=
  match dget Nat.eqb el (sc_theta c) with Some v => v | None => [] end.

(** ** Relaxing *)

(** The entries of [l] at the positions [idx], in the order of [idx]. *)
Definition picks {A : Type} (l : list A) (idx : list nat) (v : list A) : Prop :=
  map (nth_error l) idx = map Some v.
(** The entries of [l] at all other positions, in the order of [l]. *)
Definition others {A : Type} (idx : list nat) (l : list A) : list A :=
  map snd (filter (fun iv => negb (existsb (Nat.eqb (fst iv)) idx)) (combine (seq 0 (length l)) l)).

(** The running cost [L'] is [L] plus the penalty of the equations [g], for all values of
    the multipliers [nu], the weights [mu] and the variables. *)
Definition with_penalty (F : nat -> Q -> Q) (nu mu : list sym) (g L L' : list expr) : Prop :=
  forall env, Forall2 (fun l l' => eval F env l' ==
    eval F env l + penalty_value (map env nu) (map env mu) (map (eval F env) g))%Q L L'.
(** From [s] to [s'], one new multiplier and one new weight for each of [n] equations. *)
Record multiplied (opts : al_options) (n : nat) (nu mu : list sym) (s s' : relaxing) : Prop := mkMultiplied
  { mp_n : rx_n s' = (rx_n s + n)%nat;
    mp_nu : rx_nu s' = rx_nu s ++ nu; mp_nu_n : length nu = n;
    mp_mu : rx_mu_sym s' = rx_mu_sym s ++ mu; mp_mu_n : length mu = n;
    mp_weights : rx_mu s' = rx_mu s ++ repeat (al_mu_0 opts) n;
    mp_distinct : NoDup (nu ++ mu);
    mp_new : Forall (fun v => rx_next s <= v < rx_next s')%nat (nu ++ mu);
    mp_pol : rx_nu_pol s' = rx_nu_pol s /\ rx_nu_par s' = rx_nu_par s;
    mp_next : (rx_next s <= rx_next s')%nat }.
(** The problem with controls added, with their bounds. *)
Definition model_with_controls (u : list sym) (m : model) : model :=
  set_u (m_u m ++ u) (set_u_expr (m_u_expr m ++ map EVar u) (set_u_par (m_u_par m ++ u) m)).
Definition with_controls (u : list sym) (lo hi : list ext) (o : ocp) : ocp :=
  set_o_model (model_with_controls u (o_model o))
    (set_o_u_min (o_u_min o ++ lo) (set_o_u_max (o_u_max o ++ hi)
    (set_o_du_min (o_du_min o ++ repeat NInf (length u)) (set_o_du_max (o_du_max o ++ repeat PInf (length u)) o)))).
(** The problem without some algebraic variables and equations. *)
Definition without_algebraic (idx vidx : list nat) (o : ocp) : ocp :=
  set_o_model (set_y (others vidx (m_y (o_model o))) (set_alg (others idx (m_alg (o_model o))) (o_model o)))
    (set_o_y_min (others vidx (o_y_min o)) (set_o_y_max (others vidx (o_y_max o))
    (set_o_y_guess (option_map (others vidx) (o_y_guess o)) o))).
(** The guess of the controls after algebraic variables became controls: the guesses found
    at the places [idx] of the guess of the algebraic variables are appended. *)
Definition guess_moved (idx : list nat) (o : ocp) (guess : option (list Q)) : Prop :=
  match o_y_guess o with
  | None => o_u_guess o = None /\ guess = None
  | Some v => exists l, picks v idx l /\
      guess = match m_u (o_model o) with [] => Some l | _ => option_map (fun g => g ++ l) (o_u_guess o) end
  end.
(** The problem with further parameters. *)
Definition with_parameters (p : list sym) (o : ocp) : ocp :=
  set_o_model (set_p (m_p (o_model o) ++ p) (o_model o)) o.

(** State [i] of the problem has a bound. *)
Definition limited (o : ocp) (i : nat) : bool :=
  match nth_error (o_x_min o) i, nth_error (o_x_max o) i with Some NInf, Some PInf => false | _, _ => true end.
(** The equations "new variable minus state". *)
Definition copies (y x : list sym) : list expr :=
  map (fun yx => EBin OSub (EVar (fst yx)) (EVar (snd yx))) (combine y x).

(** All symbols in the running cost, the algebraic equations and the time equalities, and
    the states, are older than [c]. *)
Definition older (o : ocp) (c : sym) : Prop :=
  (forall e v, In e (o_L o ++ m_alg (o_model o) ++ o_g_eq o) -> mentions e v -> (v < c)%nat) /\
  (forall v, In v (m_x (o_model o)) -> (v < c)%nat).
(** Problem [o] became the one in [s] by relaxing the equations [g]: a weight for each and
    multipliers that are polynomials, given by their values at the points [pts] of each
    element; the running cost is increased by the penalty. *)
Record relaxes (F : nat -> Q -> Q) (pts : list Q) (w : Q) (g : list expr) (o : ocp) (s : relaxing) : Prop := mkRelaxes
  { re_p : m_p (o_model (rx_problem s)) = m_p (o_model o) ++ rx_mu_sym s;
    re_weights : length (rx_mu_sym s) = length g; re_mu : rx_mu s = repeat w (length g); re_n : rx_n s = length g;
    re_theta : m_theta (o_model (rx_problem s)) = m_theta (o_model o) ++ rx_nu_par s;
    re_par : length (rx_nu_par s) = (length g * length pts)%nat; re_par_new : NoDup (rx_nu_par s);
    re_tau : m_tau (o_model (rx_problem s)) = m_tau (o_model o);
    re_opt : o_p_opt (rx_problem s) = o_p_opt o /\ o_theta_opt (rx_problem s) = o_theta_opt o;
    re_pol : length (rx_nu_pol s) = length g;
    re_value : forall env i j tau e v, nth_error pts j = Some tau -> nth_error (rx_nu_pol s) i = Some e ->
      nth_error (rx_nu_par s) (j * length g + i) = Some v ->
      (env (m_tau (o_model o)) == tau)%Q -> (eval F env e == env v)%Q;
    re_cost : forall env, Forall2 (fun l l' => eval F env l' == eval F env l +
      penalty_value (map (eval F env) (rx_nu_pol s)) (map env (rx_mu_sym s)) (map (eval F env) g))%Q
      (o_L o) (o_L (rx_problem s)) }.

(** The numbers of the algebraic equations to relax: all of them unless some are named. *)
Definition wanted (o : ocp) (rq : request) : list nat :=
  match rq_algebraic rq with Some l => l | None => seq 0 (length (m_y (o_model o))) end.
(** The bounds [l] with [v] at the positions [idx]. *)
Definition open_at (v : ext) (idx : list nat) (l : list ext) : list ext := fold_left (fun acc i => set_nth acc i v) idx l.

(** ** Weights *)

(** [m'] is at least [m] and at most [hi]. *)
Definition grows (hi m m' : Q) : Prop := (m <= m')%Q /\ (m' <= hi)%Q.
(** The options without updates of the weights. *)
Definition skipping_weights (opts : al_options) : al_options :=
  mkAl (al_degree opts) (al_elements opts) (al_max_iter opts) (al_tol opts) (al_mu_0 opts) (al_mu_max opts)
       (al_beta opts) (al_improve opts) (al_rule opts) (al_decrease opts) (al_skip_parametrize opts)
       (al_skip_initialize opts) (al_skip_compute opts) (al_skip_nu opts) true.

(** ** Histories of multipliers *)

(** Passes with the trajectories they found: the sum, over the passes, of the weight used
    times the value of equation number [i], which is [g], at point [tau] of element [el]. *)
Fixpoint accumulated (F : nat -> Q -> Q) (a : augmented) (el i : nat) (tau : Q) (g : expr)
    (passes : list (al_step * trajectory)) : Q :=
  match passes with
  | [] => 0%Q
  | (z, q) :: rest =>
      (match nth_error (st_mu (as_before z)) i with Some w => w | None => 0%Q end
         * value_on F (ag_method a) q el tau g + accumulated F a el i tau g rest)%Q
  end.

(** ** Example data *)

(** Equality of expressions, as [is_equal] would decide it at any depth. *)
Definition expr_eq_dec : forall a b : expr, {a = b} + {a <> b}.
Proof. repeat decide equality. Defined.
Definition same_expr (a b : expr) : bool := if expr_eq_dec a b then true else false.

(** A pond: level 10 at most 5, outflow 20 with the equation outflow = level, inflow 30. *)
Definition pond_history : list ocp_op :=
  [ PIncludeState [10] None (Some [2%Q]) BNone (BVec [Fin 5%Q]) None [12] false;
    PIncludeAlgebraic [20] None (Some [Fin 0%Q]) None None;
    PIncludeControl [30] (Some [Fin 0%Q]) (Some [Fin 3%Q]) None None None;
    PIncludeEquations [] (Some [EBin OSub (EVar 30) (EVar 20)]) (Some [10]) (Some [EBin OSub (EVar 20) (EVar 10)]) ].
Definition pond_with (more : list ocp_op) : res ocp :=
  match new_ocp (new_model 1 2) None 0%Q 4%Q with
  | Raise e => Raise e
  | Ok o =>
      match run_all (ocp_step (fun _ _ => false)) (pond_history ++ more) o with
      | (_, Raise e) => Raise e
      | (o1, Ok _) => Ok (set_o_L [EBin OMul (EVar 10) (EVar 10)] o1)
      end
  end.
(** Two collocation points, two elements. *)
Definition pond_options (rule : string) (improve : bool) (iterations : nat) : al_options :=
  mkAl 2 2 iterations (1 # 10) 1%Q 10%Q 4%Q improve rule (1 # 2) false false false false false.
Definition pond_relaxed (more : list ocp_op) (rq : request) : res relaxing :=
  match pond_with more with
  | Raise e => Raise e
  | Ok o =>
      match relax same_expr radau_two
                  (pond_options "bounded-increase" false 3) rq (start_relaxing o 100) with
      | (_, Raise e) => Raise e
      | (s, Ok _) => Ok s
      end
  end.
(** The relaxed problem, prepared and discretised. *)
Definition pond_method (more : list ocp_op) (rq : request) : res augmented :=
  match pond_relaxed more rq with
  | Raise e => Raise e
  | Ok s =>
      match direct_prepare radau_two 1 60 61 200 (rx_problem s) with
      | (_, Raise e) => Raise e
      | (o, Ok _) =>
          match new_method o 2 1 2 true false true true with
          | Raise e => Raise e
          | Ok k => Ok (mkAugmented k (seq 300 (collocation_size k)) (rx_alg s) (rx_eq s) (rx_mu_sym s) (rx_nu_pol s))
          end
      end
  end.
(** Solutions of the relaxed pond: level 2 throughout and outflows 1, 9/4, 2 in turn. *)
Definition pond_solve (calls : list sub_call) : res (list Q) :=
  let out := match length calls with 1 => 1%Q | 2 => (9 # 4)%Q | _ => 2%Q end in
  Ok (repeat 2%Q 12 ++ [0%Q; out; 0%Q; out]).
Definition whole : request := mkRequest None None [] false.
Definition pond_run (rule : string) (improve : bool) (weights : list Q) (iterations : nat)
  : res ((aug_state * list sub_call) * res (list Q * list Q * theta Q)) :=
  match pond_method [] whole, pond_relaxed [] whole with
  | Ok a, Ok s =>
      let opts := pond_options rule improve iterations in
      Ok (call_solver (fun _ x => x) opts (create_nu_update_func radau_two a) 2 false pond_solve None None None
                      (set_st_mu weights (start_aug opts s None), []))
  | Raise e, _ => Raise e
  | _, Raise e => Raise e
  end.
(** What a successful run used, call by call, and returned; fractions in lowest terms. *)
Definition lowest (d : theta Q) : theta Q := map (fun kv => (fst kv, map Qred (snd kv))) d.
Definition used (x : res ((aug_state * list sub_call) * res (list Q * list Q * theta Q)))
  : list (list Q * theta Q) * option (list Q * theta Q) :=
  match x with
  | Ok ((_, calls), r) =>
      (map (fun c => (map Qred (sc_p c), lowest (sc_theta c))) (rev calls),
       match r with Ok (_, p, th) => Some (map Qred p, lowest th) | Raise _ => None end)
  | Raise _ => ([], None)
  end.
(** The pond with the inflow required to be 1, relaxed together with the bound of the level,
    and variables of which the inflow is 2 and the first multiplier 1. *)
Definition steady : list ocp_op := [PTimeEquality [EBin OSub (EVar 30) (EConst 1%Q)] "default"%string].
Definition mixed : request := mkRequest (Some []) None [0] true.
(** The pond with a second algebraic variable, the guess 1 for the control and the guesses 7
    and 9 for the algebraic variables. *)
Definition guessed_pond : res ocp :=
  match pond_with [PIncludeAlgebraic [21] (Some [EBin OSub (EVar 21) (EVar 20)]) None None None] with
  | Raise e => Raise e
  | Ok o => Ok (set_o_u_guess (Some [1%Q]) (set_o_y_guess (Some [7; 9]%Q) o))
  end.
Definition mixed_env (v : sym) : Q :=
  match v with 2 => (1 # 3)%Q | 30 => 2%Q | 105 => 1%Q | _ => 0%Q end.

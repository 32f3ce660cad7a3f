(** Model of the discretisation of optimal control problems:
    yaocptool/methods/base/solutionmethodsbase.py, base/discretizationschemebase.py,
    classic/collocationscheme.py, classic/multipleshooting.py and
    classic/directmethod.py (below: smb, dsb, col, ms and dm).  Numbers are exact
    rationals; casadi symbols are created from a counter. *)
From Coq Require Import String.
From Verif Require Import Base UtilModel ExprModel NlpModel SysModel SimModel OcpModel LagModel.
Local Open Scope list_scope.
Local Open Scope cmd_scope.

(** smb:30-97: the options of a solution method.  [k_direct] is [solution_class]. *)
Record method := mkMethod
  { k_problem : ocp; k_degree : nat; k_degree_control : nat; k_elements : nat;
    k_direct : bool; k_cost_as_sum : bool; k_x0_par : bool; k_last_u_par : bool }.

Definition k_model (k : method) : model := o_model (k_problem k).
Definition n_x (k : method) : nat := length (m_x (k_model k)).
Definition n_y (k : method) : nat := length (m_y (k_model k)).
Definition n_u (k : method) : nat := length (m_u (k_model k)).
Definition n_u_par (k : method) : nat := length (m_u_par (k_model k)).
Definition n_p (k : method) : nat := length (m_p (k_model k)).
Definition n_theta (k : method) : nat := length (m_theta (k_model k)).
Definition n_eta (k : method) : nat := length (o_eta (k_problem k)).
Definition n_p_opt (k : method) : nat := length (o_p_opt (k_problem k)).
Definition n_theta_opt (k : method) : nat := length (o_theta_opt (k_problem k)).

(** smb:34-97 [__init__] and dsb:24-39: a problem with a last control makes it a
    parameter; bounds on the control increments need constant controls. *)
Definition new_method (o : ocp) (degree degree_control elements : nat)
    (direct cost_as_sum x0_par last_u_par : bool) : res method :=
  let lu := match o_last_u o with Some _ => true | None => last_u_par end in
  if (1 <? degree_control)%nat then
    match has_delta_u o with
    | Raise e => Raise e
    | Ok true => Raise AnyException
    | Ok false => Ok (mkMethod o degree degree_control elements direct cost_as_sum x0_par lu)
    end
  else Ok (mkMethod o degree degree_control elements direct cost_as_sum x0_par lu).

(** ** Time grid *)

Definition q_of_nat (n : nat) : Q := inject_Z (Z.of_nat n).

(** smb:103-105 [delta_t]. *)
Definition delta_t (k : method) : res Q :=
  if (k_elements k =? 0)%nat then Raise ZeroDivisionErr
  else Ok ((o_t_f (k_problem k) - o_t_0 (k_problem k)) / q_of_nat (k_elements k))%Q.

(** smb:107-109 [time_breakpoints]: multiples of the step.  It is a cached property:
    [state] is the method with the cache. *)
Definition breakpoints (k : method) : res (list Q) :=
  match delta_t k with
  | Raise e => Raise e
  | Ok dt => Ok (map (fun i => dt * q_of_nat i)%Q (seq 0 (k_elements k + 1)))
  end.
Definition grid_state : Type := method * option (list Q).
Definition time_breakpoints : cmd grid_state (list Q) :=
  fun s => match snd s with
           | Some l => (s, Ok l)
           | None => match breakpoints (fst s) with
                     | Raise e => (s, Raise e)
                     | Ok l => ((fst s, Some l), Ok l)
                     end
           end.

(** [[t + delta_t * tau for tau in taus] for t in time_breakpoints[:-1]]. *)
Definition interpolation_times (dt : Q) (bps taus : list Q) : list (list Q) :=
  map (fun t => map (fun tau => t + dt * tau)%Q taus) (removelast bps).

Section Points.
  (** casadi [collocation_points(degree, "radau")]. *)
  Variable points : nat -> list Q.

  (** dsb:78-91 and smb:111-121 [time_interpolation_controls]; col:33-53. *)
  Definition control_taus (k : method) : list Q :=
    if (k_degree_control k =? 1)%nat then [0%Q] else points (k_degree_control k).
  Definition state_taus (k : method) : list Q := 0%Q :: points (k_degree k).
  Definition algebraic_taus (k : method) : list Q := points (k_degree k).
End Points.

(** ** Layout of the decision variables *)

(** The decision variables, grouped: per element and per point for x, y and u, per
    element for theta. *)
Record traj (A : Type) := mkTraj
  { r_x : list (list (list A)); r_y : list (list (list A)); r_u : list (list (list A));
    r_eta : list A; r_p : list A; r_theta : list (list A) }.
Arguments mkTraj {A}.
Arguments r_x {A}. Arguments r_y {A}. Arguments r_u {A}.
Arguments r_eta {A}. Arguments r_p {A}. Arguments r_theta {A}.

(** The creation of variables works on the NLP and on the next unused symbol. *)
Definition nlp_state : Type := nlp * sym.
Definition on_nlp {A : Type} (c : cmd nlp A) : cmd nlp_state A :=
  fun s => match c (fst s) with (n, r) => ((n, snd s), r) end.
Definition fresh (n : nat) : cmd nlp_state (list sym) :=
  fun s => ((fst s, snd s + n), Ok (seq (snd s) n)).
Fixpoint creplicate {S A : Type} (n : nat) (c : cmd S A) : cmd S (list A) :=
  match n with
  | 0 => cret []
  | S n' => a <~ c ;; l <~ creplicate n' c ;; cret (a :: l)
  end.
Definition bounds_arg (l : list ext) : barg := AVec (map BNum l).
(** [nlp.create_variable(name, n, lb, ub)]. *)
Definition nlp_variable (n : nat) (lb ub : barg) : cmd nlp_state (list sym) :=
  v <~ fresh n ;; on_nlp (NlpModel.create_variable v lb ub) ;;; cret v.

(** The controls of the elements, col:92-105 and ms:46-58. *)
Definition create_controls (k : method) : cmd nlp_state (list (list (list sym))) :=
  creplicate (k_elements k)
    (creplicate (if (0 <? n_u_par k)%nat then k_degree_control k else 0)
       (nlp_variable (n_u k) (bounds_arg (o_u_min (k_problem k))) (bounds_arg (o_u_max (k_problem k))))).
(** col:107-123 and ms:60-76: eta without bounds, p_opt and theta_opt. *)
Definition create_others (k : method) (x y u : list (list (list sym))) : cmd nlp_state (traj sym) :=
  eta <~ nlp_variable (n_eta k) (AFloat NInf) (AFloat PInf) ;;
  p <~ nlp_variable (n_p_opt k) (bounds_arg (o_p_min (k_problem k))) (bounds_arg (o_p_max (k_problem k))) ;;
  th <~ creplicate (k_elements k)
         (nlp_variable (n_theta_opt k) (bounds_arg (o_th_min (k_problem k)))
                       (bounds_arg (o_th_max (k_problem k)))) ;;
  cret (mkTraj x y u eta p th).
Definition create_states (k : method) (elements count : nat) : cmd nlp_state (list (list (list sym))) :=
  creplicate elements (creplicate count
    (nlp_variable (n_x k) (bounds_arg (o_x_min (k_problem k))) (bounds_arg (o_x_max (k_problem k))))).
Definition create_algebraics (k : method) (count : nat) : cmd nlp_state (list (list (list sym))) :=
  creplicate (k_elements k) (creplicate count
    (nlp_variable (n_y k) (bounds_arg (o_y_min (k_problem k))) (bounds_arg (o_y_max (k_problem k))))).

(** col:55-130 and ms:18-87 [_create_nlp_symbolic_variables]. *)
Definition collocation_variables (k : method) : cmd nlp_state (traj sym) :=
  x <~ create_states k (k_elements k) (k_degree k + 1) ;;
  y <~ create_algebraics k (k_degree k) ;;
  u <~ create_controls k ;;
  create_others k x y u.
Definition shooting_variables (k : method) : cmd nlp_state (traj sym) :=
  x <~ create_states k (k_elements k + 1) 1 ;;
  y <~ create_algebraics k 1 ;;
  u <~ create_controls k ;;
  create_others k x y u.

(** dsb:99-106 [vectorize]: nested [vertcat].  Casadi's [vertcat] without arguments
    is taken to give the empty vector here: every indirect method needs it. *)
Definition vectorize {A : Type} (v : list (list A)) : list A := concat v.
Definition flatten {A : Type} (r : traj A) : list A :=
  concat (concat (r_x r)) ++ concat (concat (r_y r)) ++ concat (concat (r_u r)) ++
  r_eta r ++ r_p r ++ concat (r_theta r).

(** A casadi slice [v[a:b]]; beyond the end casadi raises. *)
Definition slice {A : Type} (v : list A) (a b : nat) : res (list A) :=
  if (b <=? length v)%nat then Ok (firstn (b - a) (skipn a v)) else Raise CasadiError.

(** Reading a vector from an offset on: the state is the offset. *)
Definition read {A : Type} (v : list A) (n : nat) : cmd nat (list A) :=
  fun off => match slice v off (off + n) with
             | Ok b => (off + n, Ok b)
             | Raise e => (off, Raise e)
             end.
Definition read_controls {A : Type} (k : method) (v : list A) : cmd nat (list (list (list A))) :=
  creplicate (k_elements k)
    (creplicate (if (0 <? n_u_par k)%nat then k_degree_control k else 0) (read v (n_u k))).
(** col:206-228 and ms:105-131: the rest of the vector, and the check that all of it
    was read. *)
Definition read_others {A : Type} (k : method) (v : list A) (x y u : list (list (list A)))
  : cmd nat (traj A) :=
  eta <~ read v (n_eta k) ;;
  p <~ read v (n_p_opt k) ;;
  th <~ creplicate (k_elements k) (read v (n_theta_opt k)) ;;
  cguard (fun off => negb (off =? length v)%nat) AssertionError ;;;
  cret (mkTraj x y u eta p th).

(** col:165-228 [unpack_decision_variables] with [all_subinterval] True: the last
    point is repeated as an additional element. *)
Definition collocation_unpack {A : Type} (k : method) (v : list A) : res (traj A) :=
  snd ((x <~ creplicate (k_elements k) (creplicate (k_degree k + 1) (read v (n_x k))) ;;
        l <~ (match rev (concat x) with [] => craise IndexError | a :: _ => cret a end) ;;
        y <~ creplicate (k_elements k) (creplicate (k_degree k) (read v (n_y k))) ;;
        u <~ read_controls k v ;;
        read_others k v (x ++ [[l]]) y u) 0).
(** ms:89-132 [unpack_decision_variables]. *)
Definition shooting_unpack {A : Type} (k : method) (v : list A) : res (traj A) :=
  snd ((x <~ creplicate (k_elements k + 1) (creplicate 1 (read v (n_x k))) ;;
        y <~ creplicate (k_elements k) (creplicate 1 (read v (n_y k))) ;;
        u <~ read_controls k v ;;
        read_others k v x y u) 0).

(** col:132-163 [repack_decision_variables]. *)
Definition collocation_repack {A : Type} (r : traj A) : list A :=
  concat (concat (removelast (r_x r)) ++ concat (r_y r) ++ concat (r_u r) ++
          [r_eta r; r_p r] ++ r_theta r).

(** ** Initial guesses *)

Definition zeros (n : nat) : list Q := repeat 0%Q n.
(** [v[list_of_indices]] read one by one. *)
Definition pick {A : Type} (v : list A) (idx : list nat) : res (list A) :=
  fold_right (fun i acc => match nth_error v i, acc with
                           | Some a, Ok l => Ok (a :: l)
                           | None, Ok _ => Raise CasadiError
                           | _, Raise e => Raise e
                           end) (Ok []) idx.

(** col:617-642 and ms:482-507: the part shared by the two schemes.  [nx] and [ny]
    are the numbers of copies of the states and algebraics. *)
Definition initial_guess (k : method) (nx ny : nat) (p : option (list Q))
    (theta : option (dict nat (list Q))) : res (list Q) :=
  let o := k_problem k in
  let u := if (0 <? n_u_par k)%nat
           then repmat (match o_u_guess o with Some g => g | None => zeros (n_u k) end)
                       (k_degree_control k * k_elements k)
           else [] in
  let p_opt := match p with
               | None => Ok (zeros (n_p_opt k))
               | Some v => pick v (get_p_opt_indices o)
               end in
  let th_opt := match theta with
                | None => Ok (zeros (n_theta_opt k * k_elements k))
                | Some d =>
                    fold_right (fun el acc =>
                      match dget Nat.eqb el d, acc with
                      | Some v, Ok l => match pick v (get_theta_opt_indices o) with
                                        | Ok a => Ok (a ++ l) | Raise e => Raise e end
                      | None, Ok _ => Raise KeyError
                      | _, Raise e => Raise e
                      end) (Ok []) (seq 0 (k_elements k))
                end in
  match p_opt, th_opt with
  | Ok a, Ok b =>
      Ok (repmat (o_x_0 o) nx ++
          repmat (match o_y_guess o with Some g => g | None => zeros (n_y k) end) ny ++
          u ++ zeros (n_eta k) ++ a ++ b)
  | Raise e, _ => Raise e
  | _, Raise e => Raise e
  end.
(** col:598-642 and ms:463-507 [create_initial_guess]. *)
Definition collocation_guess (k : method) := initial_guess k ((k_degree k + 1) * k_elements k) (k_degree k * k_elements k).
Definition shooting_guess (k : method) := initial_guess k (k_elements k + 1) (k_elements k).

(** ** Parameters of the NLP *)

(** smb:243-270: the symbols of the parameters, in this order, and whether they are
    declared. *)
Record par_syms := mkParSyms
  { ps_p : list sym; ps_theta : list (list sym); ps_x0 : list sym; ps_last_u : list sym }.
Definition parameter_symbols (k : method) (c : sym) : par_syms :=
  let th := c + n_p k in
  let x0 := th + n_theta k * k_elements k in
  let lu := x0 + n_x k in
  mkParSyms (seq c (n_p k))
            (map (fun el => seq (th + n_theta k * el) (n_theta k)) (seq 0 (k_elements k)))
            (seq x0 (n_x k))
            (if k_last_u_par k then seq lu (n_u k) else []).
Definition all_mx (s : par_syms) : list sym :=
  ps_p s ++ concat (ps_theta s) ++ ps_x0 s ++ ps_last_u s.
Definition has_parameters (k : method) : bool :=
  ((0 <? n_p k + n_theta k)%nat || k_x0_par k ||
   match o_last_u (k_problem k) with Some _ => true | None => false end)%bool.

(** yaocptool/modelling/utils.py (create_constant_theta): the same vector for every element. *)
Definition constant_theta (q : Q) (dim elements : nat) : dict nat (list Q) :=
  map (fun el => (el, repeat q dim)) (seq 0 elements).

(** smb:306-387 [_get_solver_call_args]: the values of the parameters, with what is
    returned besides. *)
Record call_args := mkArgs
  { a_par : list Q; a_p : list Q; a_theta : dict nat (list Q); a_x0 : list Q;
    a_last_u : option (list Q) }.
Definition lookup_all {V : Type} (d : dict nat V) (n : nat) : res (list V) :=
  fold_right (fun el acc => match dget Nat.eqb el d, acc with
                            | Some v, Ok l => Ok (v :: l)
                            | None, Ok _ => Raise KeyError
                            | _, Raise e => Raise e
                            end) (Ok []) (seq 0 n).
Definition get_solver_call_args (k : method) (x_0 p : option (list Q))
    (theta : option (dict nat (list Q))) (last_u : option (list Q)) : res call_args :=
  let o := k_problem k in
  let x0 := match x_0 with Some v => v | None => o_x_0 o end in
  if negb (length x0 =? n_x k)%nat then Raise AnyException
  else
    let rp := match p with
              | Some v => Ok v
              | None => if (n_p_opt k =? n_p k)%nat then Ok (zeros (n_p_opt k))
                        else if (0 <? n_p k)%nat then Raise ValueError else Ok []
              end in
    match rp with
    | Raise e => Raise e
    | Ok pv =>
        let rt := match theta with
                  | Some d => Ok d
                  | None => if (n_theta_opt k =? n_theta k)%nat
                            then Ok (constant_theta 0 (n_theta_opt k) (k_elements k))
                            else if (0 <? n_theta k)%nat then Raise AnyException
                            else Ok (constant_theta 0 0 (k_elements k))
                  end in
        match rt with
        | Raise e => Raise e
        | Ok td =>
            match lookup_all td (k_elements k) with
            | Raise e => Raise e
            | Ok ths =>
                let par_x0 := if k_x0_par k then x0 else [] in
                match last_u, k_last_u_par k with
                | None, true =>
                    match o_last_u o with
                    | None => Raise ValueError
                    | Some lu => Ok (mkArgs (pv ++ concat ths ++ par_x0 ++ lu) pv td x0 (Some lu))
                    end
                | lu, _ => Ok (mkArgs (pv ++ concat ths ++ par_x0) pv td x0 lu)
                end
            end
        end
    end.

(** ** Casadi functions *)

(** [Function(name, inputs, outputs)]: refused when the outputs mention a symbol that
    is not an input. *)
Record func := mkFunc { f_in : list (list sym); f_out : list expr }.
Definition make_function (ins : list (list sym)) (out : list expr) : res func :=
  if forallb (fun s => memb Nat.eqb s (concat ins)) (flat_map symbols out)
  then Ok (mkFunc ins out) else Raise CasadiError.
(** A call: an argument of the declared size, an empty one (zeros) or a scalar. *)
Definition fit (n : nat) (a : list expr) : res (list expr) :=
  if (length a =? n)%nat then Ok a
  else match a with
       | [] => Ok (repeat (EConst 0%Q) n)
       | [e] => Ok (repeat e n)
       | _ => Raise CasadiError
       end.
Fixpoint fit_all (ins : list (list sym)) (args : list (list expr)) : res (list expr) :=
  match ins, args with
  | [], [] => Ok []
  | i :: ins', a :: args' =>
      match fit (length i) a, fit_all ins' args' with
      | Ok b, Ok l => Ok (b ++ l)
      | Raise e, _ => Raise e
      | _, Raise e => Raise e
      end
  | _, _ => Raise CasadiError
  end.
Definition call (f : func) (args : list (list expr)) : res (list expr) :=
  match fit_all (f_in f) args with
  | Ok l => Ok (subst_vec (f_out f) (concat (f_in f)) l)
  | Raise e => Raise e
  end.

(** casadi [jacobian(e, s)] of a scalar; [dfun f a] is the derivative of the unary
    operation [f] at [a]. *)
Fixpoint diff (dfun : nat -> expr -> expr) (s : sym) (e : expr) : expr :=
  match e with
  | EConst _ => EConst 0%Q
  | EVar s' => EConst (if Nat.eqb s' s then 1%Q else 0%Q)
  | EBin OAdd a b => EBin OAdd (diff dfun s a) (diff dfun s b)
  | EBin OSub a b => EBin OSub (diff dfun s a) (diff dfun s b)
  | EBin OMul a b => EBin OAdd (EBin OMul (diff dfun s a) b) (EBin OMul a (diff dfun s b))
  | EBin ODiv a b =>
      EBin ODiv (EBin OSub (EBin OMul (diff dfun s a) b) (EBin OMul a (diff dfun s b)))
                (EBin OMul b b)
  | EBin OMax a b =>
      EBin OAdd (EBin OMul (EBin OGe a b) (diff dfun s a))
                (EBin OMul (EBin OSub (EConst 1%Q) (EBin OGe a b)) (diff dfun s b))
  | EBin OMin a b =>
      EBin OAdd (EBin OMul (EBin OGe b a) (diff dfun s a))
                (EBin OMul (EBin OSub (EConst 1%Q) (EBin OGe b a)) (diff dfun s b))
  | EBin OGe a b => EConst 0%Q
  | EFun f a => EBin OMul (dfun f a) (diff dfun s a)
  end.

(** ** Pieces shared by the two schemes *)

Definition cres {S A : Type} (r : res A) : cmd S A :=
  fun s => (s, r).
Fixpoint res_map {A B : Type} (f : A -> res B) (l : list A) : res (list B) :=
  match l with
  | [] => Ok []
  | a :: l' => match f a with
               | Raise e => Raise e
               | Ok b => match res_map f l' with Ok bs => Ok (b :: bs) | Raise e => Raise e end
               end
  end.
Definition at_index {A : Type} (l : list A) (i : nat) (e : exc) : res A :=
  match nth_error l i with Some a => Ok a | None => Raise e end.
Definition last_of {A : Type} (l : list A) : res A := at_index (rev l) 0 IndexError.
(** [p[idx[i]] = values[i]] for every i. *)
Fixpoint set_nth {A : Type} (l : list A) (i : nat) (a : A) : list A :=
  match l, i with
  | [], _ => []
  | _ :: l', 0 => a :: l'
  | b :: l', S i' => b :: set_nth l' i' a
  end.
Definition put_values (p : list expr) (idx : list nat) (values : list expr) : list expr :=
  fold_left (fun acc iv => set_nth acc (fst iv) (snd iv)) (combine idx values) p.
(** Pairwise difference of two vectors. *)
Definition vec_sub (a b : list expr) : res (list expr) := zip_vec OSub a b.
Definition vec_scale (q : Q) (a : list expr) : list expr := map (EBin OMul (EConst q)) a.

(** The arguments of a function of the symbols of the model,
    system_model.py:430-450. *)
Record point := mkPoint
  { pt_t : Q; pt_x : list expr; pt_y : list expr; pt_p : list expr; pt_theta : list expr;
    pt_u : list expr }.
Definition all_sym_list (m : model) : list (list sym) :=
  [[m_t m]; m_x m; m_y m; m_p m; m_theta m; m_u_par m].
Definition call_at (f : func) (a : point) : res (list expr) :=
  call f [[EConst (pt_t a)]; pt_x a; pt_y a; pt_p a; pt_theta a; pt_u a].

(** dsb:107-133 [_create_function_from_expression] for one element, and col:282-309:
    functions of the expressions with tau replaced by the time. *)
Definition element_function (k : method) (a b : Q) (es : list expr) : res func :=
  let m := k_model k in
  make_function (all_sym_list m)
    (map (fun e => convert_expr_from_tau_to_time e (m_t m) (m_tau m) a b) es).

(** When a time dependent constraint is imposed: col:574-594 and ms:445-459; another
    tag leaves no entry and the lookup fails. *)
Definition constraint_times (w : string) (start_t end_t : Q) (default_ts : list Q) : res (list Q) :=
  if String.eqb w "start" then Ok [start_t]
  else if String.eqb w "end" then Ok [end_t]
  else if String.eqb w "default" then Ok default_ts
  else Raise KeyError.

(** Sorted list without repetitions: [sorted(set(...))]. *)
Fixpoint insert_time (q : Q) (l : list Q) : list Q :=
  match l with
  | [] => [q]
  | a :: l' => if Qeq_bool q a then l
               else if Qle_bool q a then q :: l
               else a :: insert_time q l'
  end.
Definition sort_times (l : list Q) : list Q := fold_right insert_time [] l.
Definition in_times (q : Q) (l : list Q) : bool := existsb (Qeq_bool q) l.

(** Bounds of the control increments, col:345-371 and ms:229-255.  [prev] is the
    control before the element: [None] for no constraint. *)
Definition increment_free (o : ocp) (i : nat) : res bool :=
  match nth_error (o_du_max o) i, nth_error (o_du_min o) i with
  | Some PInf, Some NInf => Ok true
  | Some _, Some _ => Ok false
  | _, _ => Raise CasadiError
  end.
Definition include_increment (k : method) (now : list (list sym)) (prev : res (list expr)) (i : nat)
  : cmd nlp_state unit :=
  let o := k_problem k in
  free <~ cres (increment_free o i) ;;
  if (free : bool) then cret tt
  else
    u_now <~ cres (at_index now 0 IndexError) ;;
    a <~ cres (at_index u_now i CasadiError) ;;
    u_prev <~ cres prev ;;
    b <~ cres (at_index u_prev i CasadiError) ;;
    lo <~ cres (at_index (o_du_min o) i CasadiError) ;;
    hi <~ cres (at_index (o_du_max o) i CasadiError) ;;
    on_nlp (NlpModel.include_inequality 1 [EBin OSub (EVar a) b]
              (Some (bounds_arg [lo])) (Some (bounds_arg [hi]))).
Definition crun {S A O : Type} (f : O -> cmd S A) (l : list O) : cmd S unit :=
  fun s => run_all f l s.
(** col:345-371: in the first element against [last_u] (never None when called from
    smb:272-274), later against the previous element. *)
Definition include_increments (k : method) (u : list (list (list sym))) (last_u : list sym) (el : nat)
  : cmd nlp_state unit :=
  has <~ cres (has_delta_u (k_problem k)) ;;
  if (has : bool) then
    now <~ cres (at_index u el IndexError) ;;
    let prev := match el with
                | 0 => Ok (map EVar last_u)
                | S e => match at_index u e IndexError with
                         | Raise x => Raise x
                         | Ok v => match at_index v 0 IndexError with
                                   | Raise x => Raise x
                                   | Ok w => Ok (map EVar w)
                                   end
                         end
                end in
    crun (include_increment k now prev) (seq 0 (n_u k))
  else cret tt.

Definition nlp_equality (e : list expr) : cmd nlp_state unit :=
  on_nlp (NlpModel.include_equality 1 e None).
Definition nlp_upper_zero (e : list expr) : cmd nlp_state unit :=
  on_nlp (NlpModel.include_inequality 1 e None (Some (AInt 0))).

(** col:256-263 and ms:165-172: optimised parameters take the place of the given ones. *)
Definition with_p_opt (k : method) (p : list sym) (r : traj sym) : list expr :=
  put_values (map EVar p) (get_p_opt_indices (k_problem k)) (map EVar (r_p r)).
Definition with_theta_opt (k : method) (theta : list (list sym)) (r : traj sym) : list (list expr) :=
  map (fun tv => put_values (map EVar (fst tv)) (get_theta_opt_indices (k_problem k)) (map EVar (snd tv)))
      (combine theta (r_theta r)).

(** col:392-406 and ms:264-276: constraints at the final time and without time. *)
Definition include_final (k : method) (x_f : list expr) (eta : list sym) (p : list expr)
  : cmd nlp_state unit :=
  let m := k_model k in
  f <~ cres (make_function [m_x m; o_eta (k_problem k); m_p m] (o_h_final (k_problem k))) ;;
  e <~ cres (call f [x_f; map EVar eta; p]) ;;
  nlp_equality e ;;;
  g <~ cres (make_function [m_p m] (o_h (k_problem k))) ;;
  e' <~ cres (call g [p]) ;;
  nlp_equality e'.
(** col:278-281 and ms:177-181. *)
Definition include_initial (k : method) (x0_var x_0 : list sym) : cmd nlp_state unit :=
  let m := k_model k in
  f <~ cres (make_function [m_x m; m_x_0 m] (o_h_initial (k_problem k))) ;;
  e <~ cres (call f [map EVar x0_var; map EVar x_0]) ;;
  nlp_equality e.
Definition vec_sum (es : list (list expr)) : res (list expr) :=
  fold_left (fun acc e => match acc with Ok a => zip_vec OAdd a e | Raise x => Raise x end)
            es (Ok [EConst 0%Q]).

(** ** Collocation *)

Section Collocation.
  Variable points : nat -> list Q.
  Variable dfun : nat -> expr -> expr.

  (** Symbols for the coefficients of the local polynomials: any that differ from
      the time symbols. *)
  Definition first_free (m : model) : sym := S (Nat.max (m_t m) (m_tau m)).

  (** col:473-514: the functions giving x and y at a time of an element, and the
      derivative of the polynomial (col:268-276). *)
  Definition polynomial (k : method) (size : nat) (at_zero : bool) : res (list expr * list sym) :=
    create_variable_polynomial_approximation points (m_tau (k_model k)) size (k_degree k)
      (first_free (k_model k)) at_zero.
  Definition polynomial_function (k : method) (size : nat) (at_zero : bool) (a b : Q) : res func :=
    let m := k_model k in
    match polynomial k size at_zero with
    | Raise e => Raise e
    | Ok (pol, par) =>
        make_function [[m_t m]; par]
          (map (fun e => convert_expr_from_tau_to_time e (m_t m) (m_tau m) a b) pol)
    end.
  Definition derivative_function (k : method) : res func :=
    match polynomial k (n_x k) true with
    | Raise e => Raise e
    | Ok (pol, par) => make_function [[m_tau (k_model k)]; par] (map (diff dfun (m_tau (k_model k))) pol)
    end.

  (** The variables of one element. *)
  Record element := mkElement
    { e_a : Q; e_b : Q; e_dt : Q; e_x : list (list sym); e_y : list (list sym);
      e_u : list (list sym); e_p : list expr; e_theta : list expr }.

  (** col:529-576: what the functions are evaluated at, for a time of the element. *)
  Definition point_at (k : method) (el : element) (t : Q) : res point :=
    match polynomial_function k (n_x k) true (e_a el) (e_b el),
          polynomial_function k (n_y k) false (e_a el) (e_b el) with
    | Ok fx, Ok fy =>
        match call fx [[EConst t]; map EVar (vectorize (e_x el))],
              call fy [[EConst t]; map EVar (vectorize (e_y el))] with
        | Ok x, Ok y =>
            Ok (mkPoint t x y (e_p el) (e_theta el)
                  (if k_direct k then map EVar (vectorize (e_u el)) else []))
        | Raise e, _ => Raise e
        | _, Raise e => Raise e
        end
    | Raise e, _ => Raise e
    | _, Raise e => Raise e
    end.
  (** col:462-479: the control function is built (and evaluated) for every element. *)
  Definition control_function (k : method) (a b : Q) : res func :=
    let m := k_model k in
    make_function (if k_direct k then [[m_t m]; m_u_par m] else all_sym_list m)
      (map (fun e => convert_expr_from_tau_to_time e (m_t m) (m_tau m) a b) (m_u_expr m)).
  Definition control_at (k : method) (f : func) (el : element) (q : point) : res (list expr) :=
    if k_direct k then call f [[EConst (pt_t q)]; map EVar (vectorize (e_u el))]
    else call_at f q.

  (** The times and functions of an element, col:562-596 and col:282-326: the entries
      of [functions] in order, with their times. *)
  Definition times_of (k : method) (el : element) (taus : list Q) : list Q :=
    map (fun tau => e_a el + e_dt el * tau)%Q taus.
  Definition constraint_entries (k : method) (el : element) (es : list expr) (ws : list string)
    : res (list (func * list Q)) :=
    res_map (fun i => match nth_error es i, nth_error ws i with
                      | Some e, Some w =>
                          match constraint_times w (e_a el) (e_b el) (times_of k el (algebraic_taus points k)),
                                element_function k (e_a el) (e_b el) [e] with
                          | Ok ts, Ok f => Ok (f, ts)
                          | Raise x, _ => Raise x
                          | _, Raise x => Raise x
                          end
                      | _, _ => Raise IndexError
                      end) (seq 0 (length es)).

  (** col:516-576: evaluation at the sorted times of all entries; the results of an
      entry are the values at its own times. *)
  Definition evaluate (k : method) (el : element) (grid : list Q) (fts : func * list Q)
    : res (list (list expr)) :=
    res_map (fun t => match point_at k el t with
                      | Raise e => Raise e
                      | Ok q => call_at (fst fts) q
                      end) (filter (fun t => in_times t (snd fts)) grid).
  Definition states_at (k : method) (el : element) (grid ts : list Q) : res (list (list expr)) :=
    res_map (fun t => match point_at k el t with
                      | Raise e => Raise e
                      | Ok q => Ok (pt_x q)
                      end) (filter (fun t => in_times t ts) grid).

  (** What [get_system_at_given_times] returns for an element. *)
  Record results := mkResults
    { z_x : list (list expr); z_ode : list (list expr); z_alg : list (list expr);
      z_ineq : list (list (list expr)); z_eq : list (list (list expr)); z_s : list (list expr) }.
  Definition element_results (k : method) (el : element) : res results :=
    let m := k_model k in
    let o := k_problem k in
    let d := get_dae_system m in
    let ts_x := times_of k el (state_taus points k) in
    let ts_y := times_of k el (algebraic_taus points k) in
    match element_function k (e_a el) (e_b el) (d_ode d), element_function k (e_a el) (e_b el) (d_alg d),
          constraint_entries k el (o_g_ineq o) (o_when_ineq o),
          constraint_entries k el (o_g_eq o) (o_when_eq o),
          element_function k (e_a el) (e_b el) (o_S o),
          control_function k (e_a el) (e_b el) with
    | Ok f_ode, Ok f_alg, Ok ineq, Ok eq, Ok f_s, Ok f_u =>
        let grid := sort_times (ts_x ++ ts_y ++ concat (map snd (ineq ++ eq)) ++ [e_b el]) in
        match res_map (fun t => match point_at k el t with
                                | Raise e => Raise e
                                | Ok q => control_at k f_u el q
                                end) grid,
              states_at k el grid ts_x,
              evaluate k el grid (f_ode, ts_x), evaluate k el grid (f_alg, ts_y),
              res_map (evaluate k el grid) ineq, res_map (evaluate k el grid) eq,
              evaluate k el grid (f_s, [e_b el]) with
        | Ok _, Ok x, Ok ode, Ok alg, Ok gi, Ok ge, Ok s => Ok (mkResults x ode alg gi ge s)
        | Raise e, _, _, _, _, _, _ => Raise e
        | _, Raise e, _, _, _, _, _ => Raise e
        | _, _, Raise e, _, _, _, _ => Raise e
        | _, _, _, Raise e, _, _, _ => Raise e
        | _, _, _, _, Raise e, _, _ => Raise e
        | _, _, _, _, _, Raise e, _ => Raise e
        | _, _, _, _, _, _, Raise e => Raise e
        end
    | Raise e, _, _, _, _, _ => Raise e
    | _, Raise e, _, _, _, _ => Raise e
    | _, _, Raise e, _, _, _ => Raise e
    | _, _, _, Raise e, _, _ => Raise e
    | _, _, _, _, Raise e, _ => Raise e
    | _, _, _, _, _, Raise e => Raise e
    end.

  (** col:329-390: the constraints of one element. *)
  Definition include_derivative (k : method) (el : element) (f_der : func) (z : results) (j : nat)
    : cmd nlp_state unit :=
    tau <~ cres (at_index (state_taus points k) j IndexError) ;;
    d <~ cres (call f_der [[EConst tau]; map EVar (vectorize (e_x el))]) ;;
    f <~ cres (at_index (z_ode z) j IndexError) ;;
    e <~ cres (vec_sub d (vec_scale (e_dt el) f)) ;;
    nlp_equality e.
  Definition include_element (k : method) (u : list (list (list sym))) (last_u : list sym)
      (f_der : func) (els : list element) (zs : list results) (i : nat) : cmd nlp_state unit :=
    el <~ cres (at_index els i IndexError) ;;
    z <~ cres (at_index zs i IndexError) ;;
    (match i with
     | 0 => cret tt
     | S i' =>
         z' <~ cres (at_index zs i' IndexError) ;;
         a <~ cres (last_of (z_x z')) ;;
         b <~ cres (at_index (z_x z) 0 IndexError) ;;
         e <~ cres (vec_sub a b) ;;
         nlp_equality e
     end) ;;;
    crun (include_derivative k el f_der z) (seq 1 (k_degree k)) ;;;
    crun (fun j => e <~ cres (at_index (z_alg z) j IndexError) ;; nlp_equality e) (seq 0 (k_degree k)) ;;;
    include_increments k u last_u i ;;;
    crun nlp_upper_zero (concat (z_ineq z)) ;;;
    crun nlp_equality (concat (z_eq z)).

  (** The elements with their variables. *)
  Definition elements (k : method) (dt : Q) (bps : list Q) (r : traj sym) (p : list expr)
      (theta : list (list expr)) : list element :=
    map (fun i => mkElement (nth i bps 0%Q) (nth (i + 1) bps 0%Q) dt (nth i (r_x r) []) (nth i (r_y r) [])
                            (nth i (r_u r) []) p (nth i theta []))
        (seq 0 (k_elements k)).

  (** col:408-420: the objective. *)
  Definition collocation_cost (k : method) (x_f p : list expr) (zs : list results) : res (list expr) :=
    let m := k_model k in
    match res_map (fun z => last_of (z_s z)) zs with
    | Raise e => Raise e
    | Ok ss =>
        match vec_sum ss with
        | Raise e => Raise e
        | Ok s =>
            if k_direct k then
              match make_function [m_x m; m_p m] (o_V (k_problem k)) with
              | Raise e => Raise e
              | Ok f => match call f [x_f; p] with
                        | Raise e => Raise e
                        | Ok v => zip_vec OAdd v s
                        end
              end
            else Ok [EConst 0%Q]
        end
    end.

  (** col:230-422 [discretize], on the parameters created by smb:243-270. *)
  Definition collocation_discretize (k : method) (s : par_syms) : cmd nlp_state (traj sym) :=
    r <~ collocation_variables k ;;
    dt <~ cres (delta_t k) ;;
    bps <~ cres (breakpoints k) ;;
    let p := with_p_opt k (ps_p s) r in
    let theta := with_theta_opt k (ps_theta s) r in
    let els := elements k dt bps r p theta in
    f_der <~ cres (derivative_function k) ;;
    x00 <~ cres (match at_index (r_x r) 0 IndexError with
                 | Ok l => at_index l 0 IndexError | Raise e => Raise e end) ;;
    include_initial k x00 (ps_x0 s) ;;;
    zs <~ cres (res_map (element_results k) els) ;;
    crun (include_element k (r_u r) (ps_last_u s) f_der els zs) (seq 0 (k_elements k)) ;;;
    x_f <~ cres (match last_of zs with Ok z => last_of (z_x z) | Raise e => Raise e end) ;;
    include_final k x_f (r_eta r) p ;;;
    cost <~ cres (collocation_cost k x_f p zs) ;;
    on_nlp (set_objective cost) ;;;
    cret r.
End Collocation.

(** smb:236-284 [create_optimization_problem] for a prepared problem: parameters,
    discretisation, declaration of the parameters.  [c] is the first unused symbol.
    What the discretisation returns besides the problem is passed on. *)
Definition create_optimization_problem {A : Type} (disc : par_syms -> cmd nlp_state A) (k : method)
    (c : sym) : res (nlp * par_syms * A) :=
  let s := parameter_symbols k c in
  match disc s (nlp_init, c + length (all_mx s)) with
  | (_, Raise e) => Raise e
  | ((n, _), Ok r) =>
      Ok (if has_parameters k then fst (NlpModel.include_parameter (all_mx s) n) else n, s, r)
  end.

(** ** Preparation by the direct method *)

(** smb:199-218 [create_control_approximation] and dm:27-52: the cost state is added
    to the final cost, and the controls are replaced by their approximation.  [x_c],
    [x_c0] and [first] are symbols created; a second call does nothing but the checks
    of smb:232-242. *)
Definition add_cost_state (x_c x_c0 : sym) : cmd ocp unit :=
  create_cost_state x_c x_c0 ;;;
  cset (fun o => zip_vec OAdd (o_V o) [EVar x_c]) (fun v => set_o_V v).
Definition parametrize_controls (points : nat -> list Q) (degree : nat) (first : sym) : cmd ocp unit :=
  fun o =>
    let m := o_model o in
    match create_variable_polynomial_approximation points (m_tau m) (length (m_u m)) degree first false with
    | Raise e => (o, Raise e)
    | Ok (pol, par) =>
        let o1 := set_o_model (set_u_expr pol (set_u_par par m)) o in
        ocp_replace_variable (m_u m) pol o1
    end.
Definition direct_prepare (points : nat -> list Q) (degree_control : nat) (x_c x_c0 first : sym)
  : cmd ocp unit :=
  cguard (fun o => negb (is_ok (pre_solve_check o))) AnyException ;;;
  add_cost_state x_c x_c0 ;;;
  parametrize_controls points degree_control first.

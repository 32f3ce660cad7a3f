(** The augmented Lagrangian method (methods/augmented_lagrangian.py, "al" below). *)
From Coq Require Import String Qabs.
From Verif Require Import Base UtilModel ExprModel NlpModel SysModel SimModel OcpModel LagModel DiscModel.
Local Open Scope list_scope.
Local Open Scope cmd_scope.

(** ** Options *)

(** al:56-87 [AugmentedLagrangianOptions].  [mu_max] and [beta] are scalars here, although
    vectors of the size of the multipliers would do; options without use in this file are
    left out. *)
Record al_options := mkAl
  { al_degree : nat; al_elements : nat; al_max_iter : nat; al_tol : Q;
    al_mu_0 : Q; al_mu_max : Q; al_beta : Q; al_improve : bool; al_rule : string;
    al_decrease : Q; al_skip_parametrize : bool; al_skip_initialize : bool;
    al_skip_compute : bool; al_skip_nu : bool; al_skip_mu : bool }.
Definition al_default : al_options :=
  mkAl 3 20 20 (1 # 1000000)%Q 1%Q (inject_Z (Z.pow 10 4)) 4%Q false "bounded-increase"%string (1 # 2)%Q
       false false false false false.

(** ** Relaxing a problem *)

(** al:155-210: the attributes the relaxation works on.  The problem is the caller's, not
    a copy.  [rx_next] is the first symbol not in use. *)
Record relaxing := mkRelaxing
  { rx_problem : ocp; rx_n : nat; rx_nu : list sym; rx_mu_sym : list sym; rx_mu : list Q;
    rx_alg : list expr; rx_eq : list expr; rx_nu_pol : list expr; rx_nu_par : list sym;
    rx_next : sym }.
Definition start_relaxing (o : ocp) (c : sym) : relaxing := mkRelaxing o 0 [] [] [] [] [] [] [] c.

Definition set_problem o s := mkRelaxing o (rx_n s) (rx_nu s) (rx_mu_sym s) (rx_mu s) (rx_alg s) (rx_eq s)
                                (rx_nu_pol s) (rx_nu_par s) (rx_next s).
Definition set_alg_relaxed v s := mkRelaxing (rx_problem s) (rx_n s) (rx_nu s) (rx_mu_sym s) (rx_mu s) v (rx_eq s)
                                (rx_nu_pol s) (rx_nu_par s) (rx_next s).
Definition set_eq_relaxed v s := mkRelaxing (rx_problem s) (rx_n s) (rx_nu s) (rx_mu_sym s) (rx_mu s) (rx_alg s) v
                                (rx_nu_pol s) (rx_nu_par s) (rx_next s).
Definition set_n_relax v s := mkRelaxing (rx_problem s) v (rx_nu s) (rx_mu_sym s) (rx_mu s) (rx_alg s) (rx_eq s)
                                (rx_nu_pol s) (rx_nu_par s) (rx_next s).
Definition set_parametrized pol par s := mkRelaxing (rx_problem s) (rx_n s) (rx_nu s) (rx_mu_sym s) (rx_mu s)
                                (rx_alg s) (rx_eq s) pol par (rx_next s).

Definition on_problem {A : Type} (c : cmd ocp A) : cmd relaxing A :=
  fun s => match c (rx_problem s) with (o, r) => (set_problem o s, r) end.
Definition of_problem {A : Type} (f : ocp -> res A) : cmd relaxing A := fun s => (s, f (rx_problem s)).
Definition new_symbols (n : nat) : cmd relaxing (list sym) :=
  fun s => (mkRelaxing (rx_problem s) (rx_n s) (rx_nu s) (rx_mu_sym s) (rx_mu s) (rx_alg s) (rx_eq s)
                       (rx_nu_pol s) (rx_nu_par s) (rx_next s + n), Ok (seq (rx_next s) n)).

(** The new multiplier symbols, al:293-294 and 352-354. *)
Definition create_nu (n : nat) : cmd relaxing (list sym) :=
  v <~ new_symbols n ;;
  cmodify (fun s => mkRelaxing (rx_problem s) (rx_n s) (rx_nu s ++ v) (rx_mu_sym s) (rx_mu s) (rx_alg s) (rx_eq s)
                               (rx_nu_pol s) (rx_nu_par s) (rx_next s)) ;;;
  cret v.
(** al:386-390 [_create_mu_variable]: a parameter of the problem. *)
Definition create_mu (opts : al_options) (n : nat) : cmd relaxing (list sym) :=
  v <~ new_symbols n ;;
  on_problem (on_model (SysModel.include_parameter v)) ;;;
  cmodify (fun s => mkRelaxing (rx_problem s) (rx_n s) (rx_nu s) (rx_mu_sym s ++ v)
                               (rx_mu s ++ repeat (al_mu_0 opts) n) (rx_alg s) (rx_eq s)
                               (rx_nu_pol s) (rx_nu_par s) (rx_next s)) ;;;
  cret v.

(** [self.problem.L += e]. *)
Definition add_to_L (e : expr) : cmd relaxing unit :=
  on_problem (cset (fun o => zip_vec OAdd (o_L o) [e]) set_o_L).
(** al:298-301: [nu.T @ g + 1 / 2.0 * g.T @ diag(mu) @ g]. *)
Definition penalty (nu mu : list sym) (g : list expr) : expr :=
  EBin OAdd (esum (map (fun ng => EBin OMul (EVar (fst ng)) (snd ng)) (combine nu g)))
            (esum (map (fun mg => EBin OMul (EBin OMul (EBin OMul (EConst (1 # 2)) (snd mg)) (EVar (fst mg))) (snd mg))
                       (combine mu g))).

(** al:287-301 [_include_relax_in_objective]. *)
Definition include_relax_in_objective (opts : al_options) (g : list expr) : cmd relaxing unit :=
  cmodify (fun s => set_n_relax (rx_n s + length g) s) ;;;
  nu <~ create_nu (length g) ;;
  mu <~ create_mu opts (length g) ;;
  add_to_L (penalty nu mu g).

(** al:303-328 [_relax_algebraic_equations].  [same] is [is_equal] of expressions.  The
    guess is read at the indices of the equations (al:314-318). *)
Definition relax_algebraic_equations (same : expr -> expr -> bool) (opts : al_options) (idx vidx : list nat)
  : cmd relaxing unit :=
  g <~ of_problem (fun o => index_vec (m_alg (o_model o)) idx) ;;
  cmodify (fun s => set_alg_relaxed (rx_alg s ++ g) s) ;;;
  include_relax_in_objective opts g ;;;
  guess <~ of_problem (fun o => match o_y_guess o with
                                | None => Ok None
                                | Some v => match index_vec v idx with
                                            | Ok l => Ok (Some l) | Raise e => Raise e end
                                end) ;;
  y <~ of_problem (fun o => index_vec (m_y (o_model o)) vidx) ;;
  hi <~ of_problem (fun o => index_vec (o_y_max o) vidx) ;;
  lo <~ of_problem (fun o => index_vec (o_y_min o) vidx) ;;
  on_problem (ocp_include_control y (Some lo) (Some hi) None None guess) ;;;
  y' <~ of_problem (fun o => index_vec (m_y (o_model o)) vidx) ;;
  on_problem (ocp_remove_algebraic same y' (Some g)).

(** [sorted(indices, reverse=True)]. *)
Fixpoint insert_desc (i : nat) (l : list nat) : list nat :=
  match l with
  | [] => [i]
  | j :: l' => if (j <=? i)%nat then i :: l else j :: insert_desc i l'
  end.
Definition sorted_desc (l : list nat) : list nat := fold_right insert_desc [] l.
(** [l.pop(i)]. *)
Definition pop_at {A : Type} (l : list A) (i : nat) : res (list A) :=
  if (i <? length l)%nat then Ok (firstn i l ++ skipn (S i) l) else Raise IndexError.

(** al:330-346 [_relax_time_equalities]. *)
Definition relax_time_equalities (opts : al_options) (idx : list nat) : cmd relaxing unit :=
  g <~ of_problem (fun o => index_vec (o_g_eq o) idx) ;;
  cmodify (fun s => set_eq_relaxed (rx_eq s ++ g) s) ;;;
  include_relax_in_objective opts g ;;;
  on_problem (cset (fun o => remove_at idx (o_g_eq o)) set_o_g_eq) ;;;
  crun (fun i => on_problem (cset (fun o => pop_at (o_when_eq o) i) set_o_when_eq)) (sorted_desc idx).

(** al:348-368 [_relax_states_constraints] for state [i]. *)
Definition unlimited (lo hi : ext) : bool :=
  match lo, hi with NInf, PInf => true | _, _ => false end.
Definition relax_state (opts : al_options) (i : nat) : cmd relaxing unit :=
  hi <~ of_problem (fun o => at_index (o_x_max o) i CasadiError) ;;
  lo <~ of_problem (fun o => at_index (o_x_min o) i CasadiError) ;;
  if unlimited lo hi then cret tt
  else
    y_x <~ new_symbols 1 ;;
    nu <~ create_nu 1 ;;
    mu <~ create_mu opts 1 ;;
    x <~ of_problem (fun o => at_index (m_x (o_model o)) i CasadiError) ;;
    let y0 := hd 0%nat y_x in
    let g := EBin OSub (EVar y0) (EVar x) in
    add_to_L (EBin OAdd (EBin OMul (EVar (hd 0%nat nu)) g)
                        (EBin OMul (EBin ODiv (EVar (hd 0%nat mu)) (EConst 2%Q)) (EBin OMul g g))) ;;;
    cmodify (fun s => set_alg_relaxed (rx_alg s ++ [g]) s) ;;;
    on_problem (ocp_include_control y_x (Some [lo]) (Some [hi]) None None None) ;;;
    on_problem (cmodify (fun o => set_o_x_max (set_nth (o_x_max o) i PInf) o)) ;;;
    on_problem (cmodify (fun o => set_o_x_min (set_nth (o_x_min o) i NInf) o)) ;;;
    cmodify (fun s => set_n_relax (rx_n s + 1) s).
Definition relax_states_constraints (opts : al_options) : cmd relaxing unit :=
  fun s => crun (relax_state opts) (seq 0 (length (m_x (o_model (rx_problem s))))) s.

(** al:373-384 [_parametrize_nu]. *)
Definition parametrize_nu (points : nat -> list Q) (opts : al_options) : cmd relaxing unit :=
  fun s =>
    let m := o_model (rx_problem s) in
    let (pol, par) := create_polynomial_approximation points (m_tau m) (rx_n s) (al_degree opts) (rx_next s) false in
    (new_symbols (length par) ;;;
     cmodify (set_parametrized pol par) ;;;
     on_problem (ocp_replace_variable (rx_nu s) pol) ;;;
     on_problem (on_model (include_theta par))) s.

(** al:128-131: what to relax.  The variables belonging to the time equalities are not
    used by the code. *)
Record request := mkRequest
  { rq_algebraic : option (list nat); rq_algebraic_var : option (list nat);
    rq_equalities : list nat; rq_states : bool }.

(** al:190-225, the relaxations of the constructor; the test of al:217 reads the algebraic
    equations that are left, at the indices of the time equalities. *)
Definition relax (same : expr -> expr -> bool) (points : nat -> list Q) (opts : al_options) (rq : request)
  : cmd relaxing unit :=
  fun s =>
    let idx := match rq_algebraic rq with
               | Some l => l
               | None => seq 0 (length (m_y (o_model (rx_problem s)))) end in
    let vidx := match rq_algebraic_var rq with Some l => l | None => idx end in
    (a <~ of_problem (fun o => index_vec (m_alg (o_model o)) idx) ;;
     (match a with [] => cret tt | _ => relax_algebraic_equations same opts idx vidx end) ;;;
     b <~ of_problem (fun o => index_vec (m_alg (o_model o)) (rq_equalities rq)) ;;
     (match b with [] => cret tt | _ => relax_time_equalities opts (rq_equalities rq) end) ;;;
     (if rq_states rq then relax_states_constraints opts else cret tt) ;;;
     if (al_skip_initialize opts || al_skip_parametrize opts)%bool then cret tt
     else parametrize_nu points opts) s.

(** ** Multipliers and penalties of a method *)

(** al:155-237: the attributes that change from iteration to iteration.  [st_shared]: the
    two dictionaries of multipliers are the same object. *)
Record aug_state := mkAug
  { st_mu : list Q; st_nu : theta Q; st_nu_tilde : option (theta Q); st_shared : bool;
    st_last : option (list Q); st_alg : list (list (list Q)); st_eq : list (list (list Q)) }.
Definition set_st_mu v s := mkAug v (st_nu s) (st_nu_tilde s) (st_shared s) (st_last s) (st_alg s) (st_eq s).
Definition set_st_last v s := mkAug (st_mu s) (st_nu s) (st_nu_tilde s) (st_shared s) v (st_alg s) (st_eq s).
Definition set_st_violations a b s := mkAug (st_mu s) (st_nu s) (st_nu_tilde s) (st_shared s) (st_last s) a b.
(** [self.nu_tilde = d] for a new dictionary, and [self.nu = self.nu_tilde]. *)
Definition set_nu_tilde d s := mkAug (st_mu s) (st_nu s) (Some d) false (st_last s) (st_alg s) (st_eq s).
Definition take_nu_tilde s :=
  match st_nu_tilde s with
  | Some d => mkAug (st_mu s) d (Some d) true (st_last s) (st_alg s) (st_eq s)
  | None => s
  end.
(** Changing the dictionary [self.nu_tilde] in place. *)
Definition change_nu_tilde (f : theta Q -> theta Q) s :=
  match st_nu_tilde s with
  | Some d => mkAug (st_mu s) (if st_shared s then f d else st_nu s) (Some (f d)) (st_shared s)
                    (st_last s) (st_alg s) (st_eq s)
  | None => s
  end.

(** al:392-397 [create_nu_initial_guess] and al:227-237. *)
Definition start_aug (opts : al_options) (s : relaxing) (nu : option (theta Q)) : aug_state :=
  let guess := create_constant_theta 0%Q (rx_n s * al_degree opts) 1 (al_elements opts) in
  mkAug (rx_mu s) (match nu with Some (a :: l) => a :: l | _ => guess end) None false None [] [].

(** al:120-264 [__init__]: relaxation, first multipliers, agreement of the options with those
    of the solver ([deg], [els]: entries of [solver_options]; [kdeg], [kels]: keyword
    arguments), and the creation of the solver.  The multipliers are made with the options
    before they agree. *)
Definition agree (given keyword : option nat) (own : nat) : res nat :=
  match given, keyword with
  | Some a, Some b => if (a =? b)%nat then Ok a else Raise ValueError
  | Some a, None => Ok a
  | None, _ => Ok own
  end.
Definition new_augmented (same : expr -> expr -> bool) (points : nat -> list Q)
    (solver : ocp -> nat -> nat -> res method) (opts : al_options) (rq : request) (nu : option (theta Q))
    (deg kdeg els kels : option nat) : cmd relaxing (aug_state * method * al_options) :=
  relax same points opts rq ;;;
  (fun s =>
     (st <~ cret (start_aug opts s nu) ;;
      d <~ cres (agree deg kdeg (al_degree opts)) ;;
      e <~ cres (agree els kels (al_elements opts)) ;;
      k <~ cres (solver (rx_problem s) d e) ;;
      cret (st, k, mkAl d e (al_max_iter opts) (al_tol opts) (al_mu_0 opts) (al_mu_max opts) (al_beta opts)
                        (al_improve opts) (al_rule opts) (al_decrease opts) (al_skip_parametrize opts)
                        (al_skip_initialize opts) (al_skip_compute opts) (al_skip_nu opts) (al_skip_mu opts))) s).

(** ** The function computing new multipliers *)

(** What it is made of: the discretised problem with its decision variables, the relaxed
    equations, the penalty symbols and the polynomials of the multipliers. *)
Record augmented := mkAugmented
  { ag_method : method; ag_variables : list sym; ag_alg : list expr; ag_eq : list expr;
    ag_mu_sym : list sym; ag_nu_pol : list expr }.

Section Update.
  Variable points : nat -> list Q.
  Variable F : nat -> Q -> Q.

  (** al:452-477 for one element and one point. *)
  Definition update_point (mu : list expr) (nus algs eqs : list (list expr)) (j : nat)
    : res (list expr * list expr * list expr) :=
    match at_index nus j IndexError, at_index algs j IndexError, at_index eqs j IndexError with
    | Ok nu, Ok a, Ok e =>
        match zip_vec OMul mu (a ++ e) with
        | Raise x => Raise x
        | Ok step => match zip_vec OAdd nu step with
                     | Raise x => Raise x
                     | Ok v => Ok (v, a, e)
                     end
        end
    | Raise x, _, _ => Raise x
    | _, Raise x, _ => Raise x
    | _, _, Raise x => Raise x
    end.

  (** al:419-477 for one element, with col:424-560 [get_system_at_given_times]: the three
      functions at the collocation points, where the controls are evaluated as well. *)
  Definition relaxed_in_controls (m : model) (es : list expr) : list expr := subst_vec es (m_u m) (m_u_expr m).
  Definition element_update (a : augmented) (mu : list expr) (el : element)
    : res (list (list expr * list expr * list expr)) :=
    let k := ag_method a in
    let m := k_model k in
    let ts := times_of k el (algebraic_taus points k) in
    match element_function k (e_a el) (e_b el) (ag_nu_pol a),
          element_function k (e_a el) (e_b el) (relaxed_in_controls m (ag_alg a)),
          element_function k (e_a el) (e_b el) (relaxed_in_controls m (ag_eq a)),
          control_function k (e_a el) (e_b el) with
    | Ok f_nu, Ok f_alg, Ok f_eq, Ok f_u =>
        let grid := sort_times ts in
        match res_map (fun t => match point_at points k el t with
                                | Raise e => Raise e
                                | Ok q => control_at k f_u el q
                                end) grid,
              evaluate points k el grid (f_nu, ts), evaluate points k el grid (f_alg, ts),
              evaluate points k el grid (f_eq, ts) with
        | Ok _, Ok nus, Ok algs, Ok eqs => res_map (update_point mu nus algs eqs) (seq 0 (k_degree k))
        | Raise e, _, _, _ => Raise e
        | _, Raise e, _, _ => Raise e
        | _, _, Raise e, _ => Raise e
        | _, _, _, Raise e => Raise e
        end
    | Raise e, _, _, _ => Raise e
    | _, Raise e, _, _ => Raise e
    | _, _, Raise e, _ => Raise e
    | _, _, _, Raise e => Raise e
    end.

  (** al:399-481 [_create_nu_update_func]: symbols for the parameters after the decision
      variables, and the outputs per element and point. *)
  Record update_function := mkUpdate
    { uf_in : list (list sym); uf_out : list (list (list expr * list expr * list expr)) }.
  Definition create_nu_update_func (a : augmented) : res update_function :=
    let k := ag_method a in
    let c := S (list_max (ag_variables a)) in
    let par := seq c (n_p k) in
    let th := map (fun el => seq (c + n_p k + n_theta k * el) (n_theta k)) (seq 0 (k_elements k)) in
    match collocation_unpack k (ag_variables a), delta_t k, breakpoints k,
          index_vec (map EVar par) (find_syms (ag_mu_sym a) (m_p (k_model k))) with
    | Ok r, Ok dt, Ok bps, Ok mu =>
        match res_map (element_update a mu) (elements k dt bps r (map EVar par) (map (map EVar) th)) with
        | Raise e => Raise e
        | Ok out => Ok (mkUpdate [ag_variables a; par; concat th] out)
        end
    | Raise e, _, _, _ => Raise e
    | _, Raise e, _, _ => Raise e
    | _, _, Raise e, _ => Raise e
    | _, _, _, Raise e => Raise e
    end.
  (** al:734-736: the call of the function with numbers. *)
  Definition call_update (f : update_function) (raw p th : list Q)
    : res (list (list (list Q * list Q * list Q))) :=
    match fit_all (uf_in f) [map EConst raw; map EConst p; map EConst th] with
    | Raise e => Raise e
    | Ok l =>
        let ev := fun es => map (eval F (fun _ => 0%Q)) (subst_vec es (concat (uf_in f)) l) in
        Ok (map (map (fun c => (ev (fst (fst c)), ev (snd (fst c)), ev (snd c)))) (uf_out f))
    end.
End Update.

(** al:763-765: the largest absolute value of every row; [cols] are all the columns. *)
Definition q_max (a b : Q) : Q := if Qle_bool a b then b else a.
Definition row_errors (cols : list (list Q)) : list Q :=
  match cols with
  | [] => []
  | c :: cs => fold_left (fun acc col => map (fun ab => q_max (fst ab) (Qabs (snd ab))) (combine acc col))
                         cs (map Qabs c)
  end.

(** al:780-786: the loop over the components when only improvements are taken; entries of
    the dictionary [new] replace those of [self.nu_tilde], for which an index outside is an
    error. *)
Definition put_at (d new : theta Q) (i : nat) : theta Q :=
  map (fun kv => (fst kv, match dget Nat.eqb (fst kv) new with
                          | Some v => set_nth (snd kv) i (nth i v 0%Q)
                          | None => snd kv
                          end)) d.
Definition take_improvement (new : theta Q) (i : nat) (err last : Q) : cmd aug_state unit :=
  if Qle_bool last err then cret tt
  else
    cmodify (fun s => set_st_last (match st_last s with
                                   | Some l => Some (set_nth l i err) | None => None end) s) ;;;
    cguard (fun s => match st_nu_tilde s with None => true | Some _ => false end) TypeError ;;;
    cguard (fun s => match st_nu_tilde s with
                     | None => false
                     | Some d => existsb (fun kv => negb (memb Nat.eqb (fst kv) (dkeys new))) d end) KeyError ;;;
    cmodify (change_nu_tilde (fun d => put_at d new i)).
Definition take_improvements (new : theta Q) (errors : list Q) : cmd aug_state unit :=
  fun s =>
    match st_last s with
    | None => (s, Ok tt)
    | Some last =>
        crun (fun iel => take_improvement new (fst iel) (fst (snd iel)) (snd (snd iel)))
             (combine (seq 0 (length errors)) (combine errors last)) s
    end.

(** al:718-791 [_compute_new_nu_and_error], from the results of the function.  [p] and
    [th] are the parameters it is called with. *)
Definition compute_new_nu_and_error (F : nat -> Q -> Q) (opts : al_options) (f : res update_function)
    (elements : nat) (p : list Q) (th : theta Q) (raw : list Q) : cmd aug_state (list Q) :=
  f0 <~ cres f ;;
  if al_skip_compute opts then cret [0%Q]
  else
    ths <~ cres (lookup_all th elements) ;;
    out <~ cres (call_update F f0 raw p (concat ths)) ;;
    cmodify (set_st_violations (map (map (fun c => snd (fst c))) out) (map (map snd) out)) ;;;
    let errors := row_errors (map (fun c => snd (fst c) ++ snd c) (concat out)) in
    let new := combine (seq 0 elements) (map (fun cols => concat (map (fun c => fst (fst c)) cols)) out) in
    (if al_skip_nu opts then cret tt
     else fun s =>
            match st_last s with
            | Some _ => if (al_improve opts && existsb (fun e => negb (Qle_bool e 0)) errors)%bool
                        then take_improvements new errors s
                        else (set_nu_tilde new s, Ok tt)
            | None => (set_nu_tilde new s, Ok tt)
            end) ;;;
    cret errors.

(** ** Penalties *)

(** al:659-672 [_update_mu_primal]. *)
Definition primal_mu (opts : al_options) (mu err last : Q) : Q :=
  if Qle_bool err (al_decrease opts * last) then mu
  else if Qle_bool (al_mu_max opts) (mu * al_beta opts) then al_mu_max opts else (mu * al_beta opts)%Q.
Fixpoint update_mu_primal (opts : al_options) (mu error last : list Q) : list Q :=
  match mu, error, last with
  | m :: mu', e :: error', l :: last' => primal_mu opts m e l :: update_mu_primal opts mu' error' last'
  | _, _, _ => mu
  end.
(** casadi [fmin(a, b)]. *)
Definition fmin (a b : Q) : Q := if Qle_bool a b then a else b.

(** al:637-657 [_update_mu]. *)
Definition update_mu (opts : al_options) (error : list Q) (last : option (list Q)) : cmd aug_state unit :=
  if al_skip_mu opts then cret tt
  else if String.eqb (al_rule opts) "constant" then cret tt
  else if String.eqb (al_rule opts) "primal" then
    match last with
    | Some l => cmodify (fun s => set_st_mu (update_mu_primal opts (st_mu s) error l) s)
    | None => cret tt
    end
  else if String.eqb (al_rule opts) "primal-dual" then cret tt
  else if String.eqb (al_rule opts) "bounded-increase" then
    cmodify (fun s => set_st_mu (map (fun m => fmin (al_mu_max opts) (m * al_beta opts)%Q) (st_mu s)) s)
  else craise ValueError.

(** al:674-682 [set_mu]. *)
Definition set_mu (v : list Q) : cmd aug_state unit :=
  fun s => if (length v =? length (st_mu s))%nat then (set_st_mu v s, Ok tt)
           else match v with
                | [a] => (set_st_mu (repeat (1 * a)%Q (length (st_mu s))) s, Ok tt)
                | _ => (s, Raise ValueError)
                end.

(** al:620-635 [update_parameters]. *)
Definition with_mu (p : option (list Q)) (mu : list Q) : list Q :=
  match p with Some v => v ++ mu | None => mu end.
Definition update_parameters (F : nat -> Q -> Q) (opts : al_options) (f : res update_function) (elements : nat)
    (p : option (list Q)) (th : option (theta Q)) (raw : list Q) : cmd aug_state (list Q) :=
  fun s =>
    (theta_k <~ cres (join_thetas [th; Some (st_nu s)]) ;;
     error <~ compute_new_nu_and_error F opts f elements (with_mu p (st_mu s)) theta_k raw ;;
     (fun s' => update_mu opts error (st_last s') s') ;;;
     cmodify (set_st_last (Some error)) ;;;
     cret error) s.

(** ** The iterations *)

(** A call of the solver for the relaxed problem. *)
Record sub_call := mkSub { sc_guess : option (list Q); sc_p : list Q; sc_theta : theta Q }.
(** al:483-488 [join_nu_to_theta]. *)
Definition join_nu_to_theta (th : option (theta Q)) (nu : theta Q) : res (theta Q) :=
  match th with Some d => join_thetas [Some d; Some nu] | None => Ok nu end.

Section Iterations.
  Variables (F : nat -> Q -> Q) (opts : al_options) (f : res update_function) (elements : nat).
  Variable no_update : bool.
  (** The solver of the relaxed problem: the decision variables of its solution, for the
      calls made so far, the last of them first. *)
  Variable ocp_solve : list sub_call -> res (list Q).
  Variables (p : option (list Q)) (th : option (theta Q)).

  (** What is returned, al:600 and 618: without parameters of the caller the vector of
      penalties is returned itself, and the rule "primal" has changed it in place; without
      theta the dictionary of multipliers itself. *)
  Definition returned (s : aug_state) (c : sub_call) (raw : list Q) : list Q * list Q * theta Q :=
    (raw,
     match p with
     | None => if String.eqb (al_rule opts) "primal" then st_mu s else sc_p c
     | Some _ => sc_p c
     end,
     match th with None => st_nu s | Some _ => sc_theta c end).

  (** al:544-600, one iteration: the value returned and whether to stop. *)
  Definition iteration (guess : option (list Q))
    : cmd (aug_state * list sub_call) (bool * (list Q * list Q * theta Q)) :=
    fun st =>
      let s := take_nu_tilde (fst st) in
      match join_nu_to_theta th (st_nu s) with
      | Raise e => ((s, snd st), Raise e)
      | Ok theta_k =>
          let c := mkSub guess (with_mu p (st_mu s)) theta_k in
          let calls := c :: snd st in
          match ocp_solve calls with
          | Raise e => ((s, calls), Raise e)
          | Ok raw =>
              if no_update then ((s, calls), Ok (false, (raw, sc_p c, sc_theta c)))
              else match update_parameters F opts f elements p th raw s with
                   | (s', Raise e) => ((s', calls), Raise e)
                   | (s', Ok error) =>
                       ((s', calls),
                        Ok (forallb (fun e => negb (Qle_bool (al_tol opts) e)) error, returned s' c raw))
                   end
          end
      end.
  (** al:529-618 [call_solver]: without any iteration the name [n_it] has no value. *)
  Fixpoint iterations (n : nat) (guess : option (list Q)) (last : option (list Q * list Q * theta Q))
    : cmd (aug_state * list sub_call) (list Q * list Q * theta Q) :=
    match n with
    | 0 => match last with Some v => cret v | None => craise UnboundLocalError end
    | S n' =>
        out <~ iteration guess ;;
        if fst out then cret (snd out) else iterations n' (Some (fst (fst (snd out)))) (Some (snd out))
    end.
  Definition call_solver (guess : option (list Q)) : cmd (aug_state * list sub_call) (list Q * list Q * theta Q) :=
    iterations (al_max_iter opts) guess None.
End Iterations.

(** The distributed augmented Lagrangian method
    (methods/network/distributedaugmetedlagrangian.py, "dal" below). *)
From Coq Require Import String.
From Verif Require Import Base UtilModel ExprModel NlpModel SysModel SimModel DiscModel ResModel NetModel.
Local Open Scope list_scope.
Local Open Scope cmd_scope.

(** ** What the method works on *)

(** dal:42-62 [DistributedAugmentedLagrangianOptions], with [mu_update_rule], [gamma],
    [beta] and [beta_decrease] of [al_options]; [randomized_inner] has no use. *)
Record dal_options := mkDal
  { do_degree : nat; do_elements : nat; do_inner : nat; do_inner_first : option nat; do_outer : nat;
    do_abs_tol : Q; do_inner_tol : Q; do_distributed : bool; do_choice : string;
    do_rule : string; do_gamma : Q; do_beta : Q; do_beta_decrease : Q }.

(** The part of the network that is read: predecessors and successors with their
    connections in the order of networkx, the variables [y] and [u] of the models, the
    guesses of the problems, and the identifiers. *)
Record dnet := mkDnet
  { dn_nodes : list addr; dn_pred : addr -> list (addr * conn); dn_succ : addr -> list (addr * conn);
    dn_y : addr -> list sym; dn_u : addr -> list sym;
    dn_y_guess : addr -> option (list Q); dn_u_guess : addr -> option (list Q); dn_id : addr -> Z }.

(** The result of a node: [success], [objective_opt_problem], [raw_solution_dict["x"]], and
    the data. *)
Record node_result := mkNodeResult
  { nr_success : bool; nr_objective : Q; nr_x : list Q; nr_data : opt_result }.
Definition results := dict addr node_result.

(** Values by element and point. *)
Definition values := list (list (list Q)).

(** dal:190-218 [_get_variable_last_result] for one index. *)
Definition last_values (opts : dal_options) (net : dnet) (last : results) (a : addr) (type : string) (ind : nat)
  : res values :=
  let constant v := repeat (repeat v (do_degree opts)) (do_elements opts) in
  let of_guess g := match g with
                    | Some v => match pick v [ind] with Ok q => Ok (constant q) | Raise e => Raise e end
                    | None => Ok (constant [0%Q])
                    end in
  match dget Nat.eqb a last with
  | Some r => get_variable (nr_data r) type [ind]
  | None => if String.eqb type "y" then of_guess (dn_y_guess net a)
            else if String.eqb type "u" then of_guess (dn_u_guess net a)
            else Ok (constant [0%Q])
  end.

(** dal:220-224 [_get_block_number]. *)
Fixpoint block_number (blocks : dict nat (list addr)) (a : addr) : res nat :=
  match blocks with
  | [] => Raise ValueError
  | (k, l) :: blocks' => if memb Nat.eqb a l then Ok k else block_number blocks' a
  end.

(** dal:257-281 [_get_node_theta]: [data[i] = vertcat(data[i], *y_data[i])]. *)
Definition extend_theta (elements : nat) (th : theta Q) (v : values) : res (theta Q) :=
  res_map (fun i => match at_index v i IndexError with
                    | Raise e => Raise e
                    | Ok l => Ok (i, match dget Nat.eqb i th with Some w => w | None => [] end ++ concat l)
                    end) (seq 0 elements).
Fixpoint extend_all (elements : nat) (th : theta Q) (l : list (res values)) : res (theta Q) :=
  match l with
  | [] => Ok th
  | Raise e :: _ => Raise e
  | Ok v :: l' => match extend_theta elements th v with
                  | Raise e => Raise e
                  | Ok th' => extend_all elements th' l'
                  end
  end.
(** The values of all neighbours: outputs of predecessors, then inputs of successors. *)
Definition from_pred (opts : dal_options) (net : dnet) (last : results) (pc : addr * conn) : list (res values) :=
  map (last_values opts net last (fst pc) "y") (find_syms (fst (snd pc)) (dn_y net (fst pc))).
Definition from_succ (opts : dal_options) (net : dnet) (last : results) (sc : addr * conn) : list (res values) :=
  map (last_values opts net last (fst sc) "u") (find_syms (snd (snd sc)) (dn_u net (fst sc))).
Definition node_theta (opts : dal_options) (net : dnet) (last : results) (a : addr) : res (theta Q) :=
  extend_all (do_elements opts) []
    (flat_map (from_pred opts net last) (dn_pred net a) ++ flat_map (from_succ opts net last) (dn_succ net a)).

(** dal:226-255 [_get_node_exogenous]: values and block numbers by variable; variables are
    told apart by their symbol, not by their name. *)
Definition exog_entries := dict sym (values * nat).
Record exogenous := mkExog { ex_in : exog_entries; ex_out : exog_entries }.
Fixpoint exog_vars (get : nat -> res values) (vars : list sym) (blk : nat) (idx : list nat) (d : exog_entries)
  : res exog_entries :=
  match idx with
  | [] => Ok d
  | i :: idx' =>
      match at_index vars i CasadiError, get i with
      | Ok s, Ok v => exog_vars get vars blk idx' (dset Nat.eqb s (v, blk) d)
      | Raise e, _ => Raise e
      | _, Raise e => Raise e
      end
  end.
Fixpoint exog_side (blocks : dict nat (list addr)) (get : addr -> nat -> res values) (vars : addr -> list sym)
    (wanted : conn -> list sym) (l : list (addr * conn)) (d : exog_entries) : res exog_entries :=
  match l with
  | [] => Ok d
  | (b, c) :: l' =>
      match block_number blocks b with
      | Raise e => Raise e
      | Ok k => match exog_vars (get b) (vars b) k (find_syms (wanted c) (vars b)) d with
                | Raise e => Raise e
                | Ok d' => exog_side blocks get vars wanted l' d'
                end
      end
  end.
Definition node_exogenous (opts : dal_options) (net : dnet) (blocks : dict nat (list addr)) (last : results)
    (a : addr) : res exogenous :=
  match exog_side blocks (fun b => last_values opts net last b "y") (dn_y net) fst (dn_pred net a) [] with
  | Raise e => Raise e
  | Ok i => match exog_side blocks (fun b => last_values opts net last b "u") (dn_u net) snd (dn_succ net a) [] with
            | Raise e => Raise e
            | Ok o => Ok (mkExog i o)
            end
  end.

Section Methods.
  (** The solution methods of the nodes: [S] is the state of one, and calls change the
      state of the node they are made for only.  With [distributed], the state is that of
      the copy of the node in its process (erised [Proxy]), which makes its calls one after
      the other. *)
  Variable S : Type.
  Variable solve : addr -> S -> theta Q -> option (list Q) -> S * res node_result.
  Variable update : addr -> S -> theta Q -> list Q -> exogenous -> S * res (list Q).
  (** [compute_primal_dual]: primal and dual residual and the errors. *)
  Variable primal_dual : addr -> S -> theta Q -> list Q -> exogenous -> S * res (Q * ext * list Q).
  (** The attribute [mu], [set_mu(mu)], and the assignment [solution_method.mu = mu]. *)
  Variable mu_of : S -> list Q.
  Variable set_mu : Q -> S -> S * res unit.
  Variable put_mu : list Q -> S -> S.

  Variables (opts : dal_options) (net : dnet) (blocks : dict nat (list addr)).

  (** The attribute [_last_result] and the methods of the nodes. *)
  Record dstate := mkState { d_last : results; d_method : addr -> S }.
  Definition set_last v s := mkState v (d_method s).
  Definition put {A : Type} (a : addr) (v : A) (f : addr -> A) : addr -> A :=
    fun b => if Nat.eqb b a then v else f b.
  Definition on_node {A : Type} (a : addr) (c : S -> S * res A) : cmd dstate A :=
    fun s => match c (d_method s a) with (m, r) => (mkState (d_last s) (put a m (d_method s)), r) end.
  Definition reading {A : Type} (f : results -> res A) : cmd dstate A := fun s => (s, f (d_last s)).

  (** dal:296-301 and 324-330: the warm start. *)
  Definition warm_start (last : results) (a : addr) : option (list Q) :=
    match dget Nat.eqb a last with Some r => Some (nr_x r) | None => None end.

  (** ** Solving all nodes *)

  (** dal:296-312: one node of the serial sweep. *)
  Definition solve_serial_node (a : addr) (found : results) : cmd dstate results :=
    th <~ reading (fun last => node_theta opts net last a) ;;
    guess <~ reading (fun last => Ok (warm_start last a)) ;;
    r <~ on_node a (fun m => solve a m th guess) ;;
    if nr_success r
    then cmodify (fun s => set_last (dset Nat.eqb a r (d_last s)) s) ;;; cret (dset Nat.eqb a r found)
    else cret found.
  Fixpoint solve_serial_nodes (l : list addr) (found : results) : cmd dstate results :=
    match l with
    | [] => cret found
    | a :: l' => found' <~ solve_serial_node a found ;; solve_serial_nodes l' found'
    end.
  (** dal:291-313 [_solve_node_problems_serial]. *)
  Definition solve_serial (bs : list (list addr)) : cmd dstate results := solve_serial_nodes (concat bs) [].

  (** dal:334-340: all calls are made, then the results are read in order.  A node given
      twice in a block is called twice and its second result is read. *)
  Fixpoint call_all (jobs : list (addr * (theta Q * option (list Q)))) (s : dstate) (acc : dict addr (res node_result))
    : dstate * dict addr (res node_result) :=
    match jobs with
    | [] => (s, acc)
    | (a, (th, guess)) :: jobs' =>
        match on_node a (fun m => solve a m th guess) s with
        | (s', r) => call_all jobs' s' (dset Nat.eqb a r acc)
        end
    end.
  Fixpoint read_all {A : Type} (l : dict addr (res A)) : res (dict addr A) :=
    match l with
    | [] => Ok []
    | (a, Raise e) :: _ => Raise e
    | (a, Ok r) :: l' => match read_all l' with Ok d => Ok ((a, r) :: d) | Raise e => Raise e end
    end.
  (** dal:321-348: one block. *)
  Definition job_of (last : results) (a : addr) : res (addr * (theta Q * option (list Q))) :=
    match node_theta opts net last a with
    | Raise e => Raise e
    | Ok th => Ok (a, (th, warm_start last a))
    end.
  Definition solve_distributed_block (b : list addr) (found : results) : cmd dstate results :=
    jobs <~ reading (fun last => res_map (job_of last) b) ;;
    rs <~ (fun s => match call_all jobs s [] with (s', acc) => (s', read_all acc) end) ;;
    cret (dupdate Nat.eqb found (filter (fun ar => nr_success (snd ar)) rs)).
  (** dal:315-352 [_solve_node_problems_distributed]. *)
  Fixpoint solve_distributed_blocks (bs : list (list addr)) (found : results) : cmd dstate results :=
    match bs with
    | [] => cret found
    | b :: bs' => found' <~ solve_distributed_block b found ;; solve_distributed_blocks bs' found'
    end.
  Definition solve_distributed (bs : list (list addr)) : cmd dstate results := solve_distributed_blocks bs [].

  (** dal:283-289 [_solve_node_problems]. *)
  Definition solve_nodes (bs : list (list addr)) : cmd dstate results :=
    if do_distributed opts then solve_distributed bs else solve_serial bs.

  (** ** Updating the parameters *)

  (** The arguments of dal:651-659. *)
  Definition update_node (a : addr) (r : node_result) : cmd dstate (list Q) :=
    th <~ reading (fun last => node_theta opts net last a) ;;
    ex <~ reading (fun last => node_exogenous opts net blocks last a) ;;
    on_node a (fun m => update a m th (nr_x r) ex).
  Fixpoint update_nodes (l : results) : cmd dstate (dict addr (list Q)) :=
    match l with
    | [] => cret []
    | (a, r) :: l' => e <~ update_node a r ;; es <~ update_nodes l' ;; cret ((a, e) :: es)
    end.

  (** dal:495-510 [_compute_primal_dual_mu].  [max] of one matrix iterates over it, which
      casadi refuses, and of none is an error; residuals may be minus infinity. *)
  Definition ext_max (a b : ext) : ext :=
    match a, b with
    | NInf, _ => b
    | _, NInf => a
    | PInf, _ => PInf
    | _, PInf => PInf
    | Fin x, Fin y => if Qle_bool x y then b else a
    end.
  Definition max_of {A : Type} (f : A -> A -> A) (l : list A) : res A :=
    match l with
    | [] => Raise TypeError
    | [_] => Raise AnyException
    | a :: l' => Ok (fold_left f l' a)
    end.
  Definition primal_wins (r : Q) (s : ext) : bool :=
    match s with
    | NInf => negb (Qle_bool (do_gamma opts) 0)
    | Fin q => negb (Qle_bool r (do_gamma opts * q))
    | PInf => negb (Qle_bool 0 (do_gamma opts))
    end.
  Definition dual_wins (r : Q) (s : ext) : bool :=
    match s with
    | NInf => false
    | Fin q => negb (Qle_bool q (do_gamma opts * r))
    | PInf => true
    end.
  Definition primal_dual_mu (mu : Q) (rs : list Q) (ss : list ext) : res Q :=
    match max_of (fun a b => if Qle_bool a b then b else a) rs, max_of ext_max ss with
    | Ok r, Ok s => Ok (if primal_wins r s then (do_beta opts * mu)%Q
                        else if dual_wins r s then (/ do_beta_decrease opts * mu)%Q
                        else mu)
    | Raise e, _ => Raise e
    | _, Raise e => Raise e
    end.

  (** dal:520-526 and 625-626: the first penalties, of all nodes of the network.  [has] says
      whether the method of a node is there: nodes outside the blocks have none, and with
      [distributed] only nodes of blocks that were solved have a process. *)
  Definition first_mu (has : addr -> bool) (missing : exc) (s : dstate) (a : addr) : res Q :=
    if has a then at_index (mu_of (d_method s a)) 0 CasadiError else Raise missing.
  Definition residuals_of (a : addr) (r : node_result) : cmd dstate (Q * ext * list Q) :=
    th <~ reading (fun last => node_theta opts net last a) ;;
    ex <~ reading (fun last => node_exogenous opts net blocks last a) ;;
    on_node a (fun m => primal_dual a m th (nr_x r) ex).
  Fixpoint all_residuals (l : results) : cmd dstate (dict addr (Q * ext * list Q)) :=
    match l with
    | [] => cret []
    | (a, r) :: l' => e <~ residuals_of a r ;; es <~ all_residuals l' ;; cret ((a, e) :: es)
    end.
  (** dal:624-646 and 519-553, rule "primal-dual".  In the distributed case the calls are
      made before the first result is read, so that all of them change their nodes; an
      exception ends the method at once here. *)
  Definition update_primal_dual (has : addr -> bool) (missing : exc) (rd : results)
    : cmd dstate (dict addr (list Q)) :=
    mus <~ (fun s => (s, res_map (first_mu has missing s) (dn_nodes net))) ;;
    rs <~ all_residuals rd ;;
    match mus with
    | [] => craise KeyError
    | mu :: mus' =>
        if negb (forallb (Qeq_bool mu) mus') then craise ValueError
        else
          mu' <~ cres (primal_dual_mu mu (map (fun ar => fst (fst (snd ar))) rs)
                                         (map (fun ar => snd (fst (snd ar))) rs)) ;;
          crun (fun ar : addr * node_result => on_node (fst ar) (set_mu mu')) rd ;;;
          cret (map (fun ar => (fst ar, snd (snd ar))) rs)
    end.

  (** dal:647-660: by identifier. *)
  Definition by_id (rd : results) : results := sort_by (fun ar => dn_id net (fst ar)) rd.
  (** dal:619-661 [_update_parameters_serial]. *)
  Definition update_serial (rd : results) : cmd dstate (dict addr (list Q)) :=
    if String.eqb (do_rule opts) "primal-dual" then update_primal_dual (fun a => memb Nat.eqb a (concat (dvals blocks))) AttributeError rd
    else update_nodes (by_id rd).

  (** dal:602-617: the penalties of all nodes with a process become the largest of all. *)
  Definition largest_mu (l : list (list Q)) : res Q :=
    match res_map (fun mu => match mu with
                             | [] => Raise ValueError
                             | m :: mu' => Ok (fold_left (fun a b => if Qle_bool a b then b else a) mu' m)
                             end) l with
    | Raise e => Raise e
    | Ok [] => Raise ValueError
    | Ok (m :: l') => Ok (fold_left (fun a b => if Qle_bool a b then b else a) l' m)
    end.
  Definition sync_mu (proxies : list addr) : cmd dstate unit :=
    fun s =>
      match largest_mu (map (fun a => mu_of (d_method s a)) proxies) with
      | Raise e => (s, Raise e)
      | Ok m => (mkState (d_last s)
                   (fun a => if memb Nat.eqb a proxies
                             then put_mu (repeat m (length (mu_of (d_method s a)))) (d_method s a)
                             else d_method s a), Ok tt)
      end.
  (** dal:512-617 [_update_parameters_distributed]; [proxies] are the nodes with a
      process. *)
  Definition update_distributed (proxies : list addr) (rd : results) : cmd dstate (dict addr (list Q)) :=
    if String.eqb (do_rule opts) "primal-dual"
    then update_primal_dual (fun a => memb Nat.eqb a proxies) KeyError rd
    else es <~ update_nodes rd ;; (sync_mu proxies ;;; cret es).

  (** dal:490-493 [_update_parameters]. *)
  Definition update_parameters (proxies : list addr) (rd : results) : cmd dstate (dict addr (list Q)) :=
    if do_distributed opts then update_distributed proxies rd else update_serial rd.

  (** ** The iterations *)

  (** dal:354-362 [_number_of_inner_iterations]. *)
  Definition inner_iterations (outer : nat) : nat :=
    match outer, do_inner_first opts with
    | 0%nat, Some n => Nat.max (do_inner opts) n
    | _, _ => do_inner opts
    end.

  (** dal:364-377 [_block_iterator]: [draw k] are the positions drawn for sweep [k], for
      "choices" any, for "sample" each once. *)
  Variable draw : nat -> list nat.
  Definition block_iterator (k : nat) : res (list (list addr)) :=
    if String.eqb (do_choice opts) "cyclic" then Ok (dvals blocks)
    else if (String.eqb (do_choice opts) "choices" || String.eqb (do_choice opts) "sample")%bool
         then Ok (map (fun i => nth i (dvals blocks) []) (draw k))
         else Raise ValueError.

  Definition total (rd : results) : Q :=
    fold_left (fun acc ar => (acc + nr_objective (snd ar))%Q) rd 0%Q.

  (** dal:426-435: [objective > (1 - inner_loop_tol) * last_objective], where the last
      objective may be infinity, and infinity times zero is no number. *)
  Definition no_decrease (objective : Q) (last : ext) : bool :=
    let f := (1 - do_inner_tol opts)%Q in
    match last with
    | Fin q => negb (Qle_bool objective (f * q))
    | PInf => negb (Qle_bool 0 f)
    | NInf => negb (Qle_bool f 0)
    end.

  (** The variables of the loops: the state, [result_dict], the number of sweeps made so
      far, and the nodes with a process. *)
  Record loop := mkLoop { l_state : dstate; l_results : results; l_sweeps : nat; l_proxies : list addr }.
  Definition in_loop {A : Type} (c : cmd dstate A) : cmd loop A :=
    fun l => match c (l_state l) with
             | (s, r) => (mkLoop s (l_results l) (l_sweeps l) (l_proxies l), r) end.
  Definition add_proxies (bs : list (list addr)) (l : list addr) : list addr :=
    fold_left (fun acc a => if memb Nat.eqb a acc then acc else acc ++ [a]) (concat bs) l.

  (** dal:407-424: one sweep.  [result_dict] becomes [_last_result]. *)
  Definition sweep : cmd loop Q :=
    fun l =>
      (bs <~ cres (block_iterator (l_sweeps l)) ;;
       new <~ in_loop (solve_nodes bs) ;;
       cmodify (fun l =>
         let rd := dupdate Nat.eqb (l_results l) (filter (fun ar => nr_success (snd ar)) new) in
         mkLoop (set_last rd (l_state l)) rd (l_sweeps l + 1)
                (if do_distributed opts then add_proxies bs (l_proxies l) else l_proxies l)) ;;;
       (fun l => (l, Ok (total (l_results l))))) l.

  (** dal:404-436, the inner loop with [n] sweeps left: the objectives after the sweeps it
      made. *)
  Fixpoint inner_loop (n : nat) (last : ext) : cmd loop (list Q) :=
    match n with
    | 0%nat => cret []
    | Datatypes.S n' =>
        o <~ sweep ;;
        if no_decrease o last then cret [o]
        else os <~ inner_loop n' (Fin o) ;; cret (o :: os)
    end.

  (** dal:451-453: [max] of floats; of one float it is an error too. *)
  Definition max_error (es : dict addr (list Q)) : res Q :=
    match concat (dvals es) with
    | [] | [_] => Raise TypeError
    | e :: l => Ok (fold_left (fun a b => if Qle_bool a b then b else a) l e)
    end.

  (** dal:399-473, the outer loop from iteration [k] with [n] left: for every iteration
      made the objectives of its sweeps and its error, and the last errors. *)
  Fixpoint outer_loop (n k : nat) (errors : dict addr (list Q)) : cmd loop (list (list Q * Q) * dict addr (list Q)) :=
    match n with
    | 0%nat => cret ([], errors)
    | Datatypes.S n' =>
        os <~ inner_loop (inner_iterations k) PInf ;;
        es <~ (fun l => in_loop (update_parameters (l_proxies l) (l_results l)) l) ;;
        m <~ cres (max_error es) ;;
        if negb (Qle_bool (do_abs_tol opts) m) then cret ([(os, m)], es)
        else rest <~ outer_loop n' (k + 1) es ;; cret ((os, m) :: fst rest, snd rest)
    end.

  (** dal:379-488 [solve] after the problems and methods are prepared, with the
      [number_of_iterations] of lines 484-488: the counters keep their last values, which
      are one less than the numbers of iterations.  [dr_history] is not part of the result.
      The result refuses to be made without errors
      (methods/base/distributed_optimization_result.py:28-29). *)
  Record dal_result := mkDalResult
    { dr_results : results; dr_objective : Q; dr_errors : dict addr (list Q);
      dr_inner : Z; dr_outer : Z; dr_blocks : nat; dr_history : list (list Q * Q) }.
  Fixpoint last_inner (h : list (list Q * Q)) (now : Z) : Z :=
    match h with
    | [] => now
    | (os, _) :: h' => last_inner h' (match os with [] => now | _ => Z.of_nat (length os) - 1 end)%Z
    end.
  Definition dal_solve (s : dstate) : dstate * res dal_result :=
    match outer_loop (do_outer opts) 0 [] (mkLoop s [] 0 []) with
    | (l, Raise e) => (l_state l, Raise e)
    | (l, Ok (_, [])) => (l_state l, Raise ValueError)
    | (l, Ok (h, es)) =>
        (l_state l, Ok (mkDalResult (l_results l) (total (l_results l)) es (last_inner h (-1)%Z)
                                    (Z.of_nat (length h) - 1) (l_sweeps l * length blocks) h))
    end.
End Methods.

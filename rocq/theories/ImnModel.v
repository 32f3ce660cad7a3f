(** The solution method of intermediary nodes
    (methods/network/intermediary_node_solution_method.py, "im" below). *)
From Coq Require Import String Qabs.
From Verif Require Import Base UtilModel ExprModel SimModel DiscModel AugModel.
Local Open Scope list_scope.
Local Open Scope cmd_scope.

(** The attributes of the method: those of the augmented Lagrangian method it derives from
    (im:22; of them [st_nu_tilde], [st_alg] and [st_eq] have no use here), and
    [self.nu_tilde], whose values are matrices with two rows (im:131-139). *)
Record imn := mkImn { im_state : aug_state; im_tilde : option (dict nat (list Q * list Q)) }.
Definition set_im_tilde v s := mkImn (im_state s) v.
Definition on_state {A : Type} (c : cmd aug_state A) : cmd imn A :=
  fun s => match c (im_state s) with (st, r) => (mkImn st (im_tilde s), r) end.

(** casadi [vertsplit(v, n)]: blocks of [n] rows, the last one may be shorter. *)
Fixpoint blocks_of (fuel n : nat) (v : list Q) : list (list Q) :=
  match fuel with
  | 0%nat => []
  | S fuel' => match v with
               | [] => []
               | _ => firstn n v :: blocks_of fuel' n (skipn n v)
               end
  end.
Definition vertsplit (v : list Q) (n : nat) : res (list (list Q)) :=
  if (n =? 0)%nat then Raise CasadiError else Ok (blocks_of (length v) n v).

(** im:115-120 and 164-169 [split_vector(ind)]: block [ind] of every element, in a row. *)
Definition block_of (th : theta Q) (degree ind el : nat) : res (list Q) :=
  match dget Nat.eqb el th with
  | None => Raise KeyError
  | Some v => match vertsplit v degree with
              | Raise e => Raise e
              | Ok l => at_index l ind IndexError
              end
  end.
Definition split_vector (th : theta Q) (degree elements ind : nat) : res (list Q) :=
  if (elements =? 0)%nat then Raise NotImplementedErr (* [horzcat()] without arguments *)
  else match res_map (block_of th degree ind) (seq 0 elements) with
  | Raise e => Raise e
  | Ok l => Ok (concat l)
  end.

(** im:31-35: the function for one column.  The penalty must not be zero (im:33 divides by
    it, and casadi would give infinite values or none). *)
Definition u_c (mu y u nu1 nu2 : Q) : Q := ((nu2 - nu1) / (2 * mu) + (y + u) / 2)%Q.
(** im:57-61: new multipliers and errors for one column. *)
Definition nu_next (mu y u nu1 nu2 uc yc : Q) : (Q * Q) * (Q * Q) :=
  ((nu1 + mu * (uc - y), nu2 + mu * (u - yc)), (uc - y, u - yc))%Q.

(** The arguments of both functions, rows of [degree * elements] columns (im:72-98).  Rows
    of other lengths are refused; casadi would repeat a single number. *)
Definition columns (n : nat) (ys us n1s n2s : list Q) : res (list (Q * Q * (Q * Q))) :=
  if forallb (fun l => (length l =? n)%nat) [ys; us; n1s; n2s]
  then Ok (combine (combine ys us) (combine n1s n2s))
  else Raise CasadiError.
Definition split_theta (th : theta Q) (degree elements : nat) : res (list (Q * Q * (Q * Q))) :=
  match split_vector th degree elements 0, split_vector th degree elements 1,
        split_vector th degree elements 2, split_vector th degree elements 3 with
  | Ok ys, Ok us, Ok n1s, Ok n2s => columns (degree * elements) ys us n1s n2s
  | Raise e, _, _, _ => Raise e
  | _, Raise e, _, _ => Raise e
  | _, _, Raise e, _ => Raise e
  | _, _, _, Raise e => Raise e
  end.

(** im:160-175 [solve]: the values [x] of the result, with the [p] and [theta] stored
    beside them. *)
Record imn_result := mkImnResult { ir_x : list Q; ir_p : list Q; ir_theta : theta Q }.
Definition imn_solve (opts : al_options) (th : option (theta Q)) (p : option (list Q)) : cmd imn imn_result :=
  fun s =>
    (theta_k <~ cres (join_nu_to_theta th (st_nu (im_state s))) ;;
     let p_k := with_mu p (st_mu (im_state s)) in
     cols <~ cres (split_theta theta_k (al_degree opts) (al_elements opts)) ;;
     mu <~ cres (at_index p_k 0 CasadiError) ;;
     if Qeq_bool mu 0 then craise ZeroDivisionErr
     else cret (mkImnResult (map (fun c => u_c mu (fst (fst c)) (snd (fst c)) (fst (snd c)) (snd (snd c))) cols)
                            p_k theta_k)) s.

(** im:204-214: the data of a result, the values of every element and point; they are the
    controls and the algebraic variables (the latter with the same values). *)
Definition imn_data (opts : al_options) (r : imn_result) : res (list (list Q)) := vertsplit (ir_x r) (al_degree opts).

(** im:141-153 when only improvements are taken: the errors are two, and component 0 of
    the new matrices replaces entry 0 (the first point of the first row) and component 1
    entry 1 (the first point of the second row), casadi matrices being stored by columns. *)
Definition put_entry (i : nat) (new old : list Q * list Q) : list Q * list Q :=
  if (i =? 0)%nat
  then (set_nth (fst old) 0 (nth 0 (fst new) 0%Q), snd old)
  else (fst old, set_nth (snd old) 0 (nth 0 (snd new) 0%Q)).
Definition imn_improvement (new : dict nat (list Q * list Q)) (i : nat) (err last : Q) : cmd imn unit :=
  if Qle_bool last err then cret tt
  else
    on_state (cmodify (fun s => set_st_last (match st_last s with
                                             | Some l => Some (set_nth l i err) | None => None end) s)) ;;;
    cguard (fun s => match im_tilde s with None => true | Some _ => false end) TypeError ;;;
    cguard (fun s => match im_tilde s with
                     | None => false
                     | Some d => existsb (fun kv => negb (memb Nat.eqb (fst kv) (dkeys new))) d end) KeyError ;;;
    cmodify (fun s => set_im_tilde
                        (match im_tilde s with
                         | None => None
                         | Some d => Some (map (fun kv => (fst kv, match dget Nat.eqb (fst kv) new with
                                                                   | Some v => put_entry i v (snd kv)
                                                                   | None => snd kv
                                                                   end)) d)
                         end) s).

(** im:101-158 [_compute_new_nu_and_error]: [raw] is the row [x] of a solution. *)
Definition imn_compute (opts : al_options) (p : list Q) (th : theta Q) (raw : list Q) : cmd imn (list Q) :=
  if al_skip_compute opts then cret [0%Q]
  else
    cols <~ cres (split_theta th (al_degree opts) (al_elements opts)) ;;
    mu <~ cres (at_index p 0 CasadiError) ;;
    if negb (length raw =? length cols)%nat then craise CasadiError
    else
      let out := map (fun cx => let '(c, x) := cx in
                                nu_next mu (fst (fst c)) (snd (fst c)) (fst (snd c)) (snd (snd c)) x x)
                     (combine cols raw) in
      let errors := row_errors (map (fun o => [fst (snd o); snd (snd o)]) out) in
      n1 <~ cres (vertsplit (map (fun o => fst (fst o)) out) (al_degree opts)) ;;
      n2 <~ cres (vertsplit (map (fun o => snd (fst o)) out) (al_degree opts)) ;;
      let new := combine (seq 0 (length n1)) (combine n1 n2) in
      (if al_skip_nu opts then cret tt
       else fun s =>
              match st_last (im_state s) with
              | Some last =>
                  if (al_improve opts && existsb (fun e => negb (Qle_bool e 0)) errors)%bool
                  then crun (fun iel => imn_improvement new (fst iel) (fst (snd iel)) (snd (snd iel)))
                            (combine (seq 0 (length errors)) (combine errors last)) s
                  else (set_im_tilde (Some new) s, Ok tt)
              | None => (set_im_tilde (Some new) s, Ok tt)
              end) ;;;
      cret errors.

(** al:620-635 [update_parameters], as it is inherited. *)
Definition imn_update (opts : al_options) (th : option (theta Q)) (p : option (list Q)) (raw : list Q)
  : cmd imn (list Q) :=
  fun s =>
    (theta_k <~ cres (join_thetas [th; Some (st_nu (im_state s))]) ;;
     error <~ imn_compute opts (with_mu p (st_mu (im_state s))) theta_k raw ;;
     on_state (fun st => update_mu opts error (st_last st) st) ;;;
     on_state (cmodify (set_st_last (Some error))) ;;;
     cret error) s.

(** The method right after its construction for a network (dal:668-697; al:227-237): one
    multiplier and one penalty for each of the [n] entries of both connections. *)
Definition imn_start (opts : al_options) (n : nat) : imn :=
  mkImn (mkAug (repeat (al_mu_0 opts) (2 * n))
               (create_constant_theta 0%Q (2 * n * al_degree opts) 1 (al_elements opts))
               None false None [] []) None.

(** The operations made on it: solving, updating its parameters, and setting its penalty
    (al:674-682). *)
Inductive imn_op :=
| ImSolve (th : option (theta Q)) (p : option (list Q))
| ImUpdate (th : option (theta Q)) (p : option (list Q)) (raw : list Q)
| ImSetMu (mu : list Q).
Definition imn_apply (opts : al_options) (op : imn_op) : cmd imn unit :=
  match op with
  | ImSolve th p => imn_solve opts th p ;;; cret tt
  | ImUpdate th p raw => imn_update opts th p raw ;;; cret tt
  | ImSetMu mu => on_state (set_mu mu)
  end.
Definition imn_run (opts : al_options) (ops : list imn_op) (s : imn) : imn :=
  run_caught (imn_apply opts) ops s.

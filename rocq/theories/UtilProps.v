(** Properties C01-C05 and C56: vector lookup and removal, lookup by name,
    thetas, timer and timeout. *)
From Coq Require Import String Sorted.
From Verif Require Import Base UtilModel UtilSpec UtilProofs UtilMoreProofs.
Local Open Scope string_scope.
Local Open Scope list_scope.

(** ** C01 *)

(** The result is one block of positions per requested element, in request
    order; each block lists in increasing order exactly the positions holding
    that element. *)
Theorem C01_lookup_positions :
  forall (A : Type) (is_equal : A -> A -> bool),
    (forall x y, is_equal x y = true <-> x = y) ->
  forall var vector : list A,
    exists blocks : list (list nat),
      find_variables_indices_in_vector is_equal var vector = concat blocks /\
      Forall2 (fun v blk => StronglySorted lt blk /\
                            forall i, In i blk <-> nth_error vector i = Some v)
              var blocks.
Proof. exact @find_indices_blocks. Qed.
Print Assumptions C01_lookup_positions.

(** Looking up members of a vector without repetitions and indexing with the
    result gives the request back. *)
Theorem C01_lookup_round_trip :
  forall (A : Type) (is_equal : A -> A -> bool),
    (forall x y, is_equal x y = true <-> x = y) ->
  forall var vector : list A,
    NoDup vector -> (forall v, In v var -> In v vector) ->
    map (nth_error vector) (find_variables_indices_in_vector is_equal var vector)
    = map Some var.
Proof. exact @find_indices_members. Qed.
Print Assumptions C01_lookup_round_trip.

Theorem C01_lookup_nothing :
  forall (A : Type) (is_equal : A -> A -> bool),
    (forall x y, is_equal x y = true <-> x = y) ->
  forall var vector : list A,
    find_variables_indices_in_vector is_equal var vector = [] <->
    (forall v, In v var -> ~ In v vector).
Proof. exact @find_indices_empty. Qed.
Print Assumptions C01_lookup_nothing.

Example C01_example :
  find_variables_indices_in_vector Nat.eqb [30; 10; 99] [10; 20; 30; 10] = [2; 0; 3] /\
  NoDup [10; 20; 30] /\
  find_variables_indices_in_vector Nat.eqb [30; 10] [10; 20; 30] = [2; 0].
Proof.
  split; [reflexivity|]. split; [|reflexivity].
  repeat constructor; simpl; intuition discriminate.
Qed.

(** ** C02 *)

(** A successful removal keeps exactly the positions that are not listed, in
    increasing order. *)
Theorem C02_removal_keeps_the_rest :
  forall (A : Type) (indices : list Z) (vector r : list A),
    remove_variables_from_vector_by_indices indices vector = Ok r ->
    exists kept : list nat,
      StronglySorted lt kept /\
      (forall i, In i kept <-> (i < length vector)%nat /\ ~ In (Z.of_nat i) indices) /\
      map (nth_error vector) kept = map Some r.
Proof. exact @remove_by_indices_kept. Qed.
Print Assumptions C02_removal_keeps_the_rest.

(** Order and repetition in the index list are irrelevant. *)
Theorem C02_removal_depends_on_the_set_of_indices :
  forall (A : Type) (ind1 ind2 : list Z) (vector r1 r2 : list A),
    (forall i, (i < length vector)%nat -> In (Z.of_nat i) ind1 <-> In (Z.of_nat i) ind2) ->
    remove_variables_from_vector_by_indices ind1 vector = Ok r1 ->
    remove_variables_from_vector_by_indices ind2 vector = Ok r2 ->
    r1 = r2.
Proof. exact @remove_by_indices_ext. Qed.
Print Assumptions C02_removal_depends_on_the_set_of_indices.

(** The exact error condition. *)
Theorem C02_removal_error_condition :
  forall (A : Type) (indices : list Z) (vector : list A),
    (exists e, remove_variables_from_vector_by_indices indices vector = Raise e) <->
    (exists i, In i indices /\
       (i > Z.of_nat (length vector) \/ i < - Z.of_nat (length vector))%Z).
Proof. exact @remove_by_indices_error. Qed.
Print Assumptions C02_removal_error_condition.

Theorem C02_removal_only_value_errors :
  forall (A : Type) (indices : list Z) (vector : list A) (e : exc),
    remove_variables_from_vector_by_indices indices vector = Raise e -> e = ValueError.
Proof. exact @remove_by_indices_value_error. Qed.
Print Assumptions C02_removal_only_value_errors.

(** Negative indices and the index equal to the length remove nothing, for
    every vector. *)
Theorem C02_ignored_indices :
  forall (A : Type) (indices : list Z) (vector : list A),
    (forall i, In i indices ->
       (- Z.of_nat (length vector) <= i < 0 \/ i = Z.of_nat (length vector))%Z) ->
    remove_variables_from_vector_by_indices indices vector = Ok vector.
Proof. exact @remove_by_indices_ignored. Qed.
Print Assumptions C02_ignored_indices.

(** Refutation of "an index outside the vector is rejected". *)
Theorem C02_out_of_range_rejected_refuted :
  exists (indices : list Z) (vector : list nat) (i : Z),
    In i indices /\ (i >= Z.of_nat (length vector))%Z /\
    remove_variables_from_vector_by_indices indices vector = Ok vector.
Proof.
  exists [3%Z], [10; 20; 30], 3%Z.
  split; [left; reflexivity|]. split; [simpl; lia | reflexivity].
Qed.
Print Assumptions C02_out_of_range_rejected_refuted.

(** Refutation of "index -1 removes the last element". *)
Theorem C02_negative_index_refuted :
  exists (vector : list nat),
    vector <> [] /\
    remove_variables_from_vector_by_indices [(-1)%Z] vector <> Ok (removelast vector).
Proof. exists [10; 20]. split; discriminate. Qed.
Print Assumptions C02_negative_index_refuted.

Example C02_example :
  remove_variables_from_vector_by_indices [2; 0; 2]%Z [10; 20; 30; 40] = Ok [20; 40] /\
  remove_variables_from_vector_by_indices [5]%Z [10; 20; 30; 40] = Raise ValueError /\
  remove_variables_from_vector_by_indices [-5]%Z [10; 20; 30; 40] = Raise ValueError.
Proof. repeat split. Qed.

(** ** C03 *)

Theorem C03_remove_variables :
  forall (A : Type) (is_equal : A -> A -> bool),
    (forall x y, is_equal x y = true <-> x = y) ->
  forall var vector : list A,
    ((forall v, In v var -> ~ In v vector) /\
     remove_variables_from_vector is_equal var vector = Raise ValueError) \/
    ((exists v, In v var /\ In v vector) /\
     remove_variables_from_vector is_equal var vector =
     Ok (filter (fun w => negb (existsb (is_equal w) var)) vector)).
Proof. exact @remove_variables_spec. Qed.
Print Assumptions C03_remove_variables.

Theorem C03_remaining_elements :
  forall (A : Type) (is_equal : A -> A -> bool),
    (forall x y, is_equal x y = true <-> x = y) ->
  forall var vector r : list A,
    remove_variables_from_vector is_equal var vector = Ok r ->
    forall w, In w r <-> In w vector /\ ~ In w var.
Proof. exact @remove_variables_In. Qed.
Print Assumptions C03_remaining_elements.

Example C03_example :
  remove_variables_from_vector Nat.eqb [20; 99] [10; 20; 30; 20] = Ok [10; 30] /\
  remove_variables_from_vector Nat.eqb [99] [10; 20; 30] = Raise ValueError.
Proof. split; reflexivity. Qed.

(** ** C04 *)

(** [groups] are the searched vectors in search order. *)
Theorem C04_unique_or_error :
  forall (A : Type) (name : A -> string) (re_match : string -> string -> bool)
         (n : string) (groups : list (list A)),
    match get_variable_by_name name re_match n groups with
    | Ok v => exists before after,
        concat groups = before ++ v :: after /\
        re_match n (name v) = true /\
        (forall w, In w (before ++ after) -> re_match n (name w) = false)
    | Raise e => e = ValueError /\
        ((forall w, In w (concat groups) -> re_match n (name w) = false) \/
         (exists a b c v w, concat groups = a ++ v :: b ++ w :: c /\
            re_match n (name v) = true /\ re_match n (name w) = true))
    end.
Proof. exact @get_variable_by_name_spec. Qed.
Print Assumptions C04_unique_or_error.

Theorem C04_all_matches :
  forall (A : Type) (name : A -> string) (re_match : string -> string -> bool)
         (names : list string) (groups : list (list A)) (v : A),
    In v (get_variables_by_names name re_match names groups) <->
    exists g n, In g groups /\ In v g /\ In n names /\ re_match n (name v) = true.
Proof. exact @get_variables_by_names_In. Qed.
Print Assumptions C04_all_matches.

Theorem C04_exact_and_pattern_matches :
  forall (A : Type) (name : A -> string) (re_match : string -> string -> bool)
         (names : list string) (vector : list A) (exact : bool) (v : A),
    In v (find_variables_in_vector_by_name name re_match names vector exact) <->
    In v vector /\
    exists n, In n names /\
      (if exact then name v = n else re_match n (name v) = true).
Proof. exact @find_by_name_In. Qed.
Print Assumptions C04_exact_and_pattern_matches.

(** Matching literal patterns the way [re.match] does, anchored at the start
    only: the full name of a variable need not identify it. *)
Theorem C04_full_name_identifies_refuted :
  exists (groups : list (list string)) (v : string),
    In v (concat groups) /\ NoDup (concat groups) /\
    get_variable_by_name (fun s => s) String.prefix v groups = Raise ValueError.
Proof.
  exists [["h"; "h2"]; ["q"]], "h".
  split; [left; reflexivity|]. split; [|reflexivity].
  repeat constructor; simpl; intuition discriminate.
Qed.
Print Assumptions C04_full_name_identifies_refuted.

Example C04_example :
  get_variable_by_name (fun s => s) String.prefix "q" [["h"; "h2"]; ["q"]] = Ok "q" /\
  get_variables_by_names (fun s => s) String.prefix ["q"; "h"] [["h"; "h2"]; ["q"]]
  = ["h"; "h2"; "q"].
Proof. split; reflexivity. Qed.

(** ** C05 *)

Theorem C05_join_lookup :
  forall (A : Type) (args : list (option (theta A))) (r : theta A),
    join_thetas args = Ok r ->
    NoDup (dkeys r) /\
    forall i, dget Nat.eqb i r =
      match values_held i args with
      | [] => None
      | vs => Some (concat vs)
      end.
Proof. exact @join_thetas_held. Qed.
Print Assumptions C05_join_lookup.

Theorem C05_join_error :
  forall (A : Type) (args : list (option (theta A))) (e : exc),
    join_thetas args = Raise e <->
    e = ValueError /\
    exists t t', In (Some t) args /\ In (Some t') args /\ t <> [] /\ t' <> [] /\
                 length t <> length t'.
Proof. exact @join_thetas_error. Qed.
Print Assumptions C05_join_error.

Theorem C05_join_associative :
  forall (A : Type) (a b c : list (option (theta A))) (ab r1 r2 : theta A),
    join_thetas b = Ok ab ->
    join_thetas (a ++ Some ab :: c) = Ok r1 ->
    join_thetas (a ++ b ++ c) = Ok r2 ->
    forall i, dget Nat.eqb i r1 = dget Nat.eqb i r2.
Proof. exact @join_thetas_assoc. Qed.
Print Assumptions C05_join_associative.

(** For two thetas holding the element, the joined value splits back. *)
Theorem C05_join_two :
  forall (A : Type) (a b r : theta A) (i : nat) (va vb : list A),
    join_thetas [Some a; Some b] = Ok r ->
    dget Nat.eqb i a = Some va -> dget Nat.eqb i b = Some vb ->
    dget Nat.eqb i r = Some (va ++ vb).
Proof. exact @join_thetas_two. Qed.
Print Assumptions C05_join_two.

Theorem C05_constant_theta :
  forall (A : Type) (c : A) (rows cols n i : nat),
    dget Nat.eqb i (create_constant_theta c rows cols n) =
    if (i <? n)%nat then Some (repeat c (rows * cols)) else None.
Proof. exact @constant_theta_lookup. Qed.
Print Assumptions C05_constant_theta.

(** Refutation of "dictionaries with different keys are rejected" and of "all
    elements of the result have the same size". *)
Theorem C05_different_keys_rejected_refuted :
  exists (a b r : theta nat),
    dkeys a <> dkeys b /\ join_thetas [Some a; Some b] = Ok r /\
    exists v w, dget Nat.eqb 0 r = Some v /\ dget Nat.eqb 1 r = Some w /\ length v <> length w.
Proof.
  exists [(0, [7]); (1, [8])], [(1, [9]); (2, [5])].
  eexists. split; [discriminate|]. split; [reflexivity|].
  exists [7], [8; 9]. repeat split. discriminate.
Qed.
Print Assumptions C05_different_keys_rejected_refuted.

Example C05_example :
  join_thetas [None; Some [(0, [1]); (1, [2])]; Some []; Some [(0, [3; 4]); (1, [5; 6])]]
  = Ok [(0, [1; 3; 4]); (1, [2; 5; 6])] /\
  join_thetas [Some [(0, [1])]; Some [(0, [3]); (1, [5])]] = Raise ValueError.
Proof. split; reflexivity. Qed.

(** ** C56 *)

(** Leaving the block with an exception whose cause chain has at most 20 links
    and ends in [last]. *)
Theorem C56_timeout_chain :
  forall (raise_exc : bool) (t0 : option bool) (n : nat) (e last : exc_obj),
    cause_chain n e last -> exc_cause last = None -> (n <= 20)%nat ->
    timeout_on_exit raise_exc t0 (Some e) =
    if exc_is_timeout last then mkExit (Some true) (negb raise_exc)
    else mkExit (Some false) false.
Proof. exact timeout_exit_spec. Qed.
Print Assumptions C56_timeout_chain.

(** For chains of any length: an exception is swallowed only if [raise_exc] is
    off and one of the first 21 exceptions of the chain is a TimeoutError. *)
Theorem C56_only_timeouts_swallowed :
  forall (raise_exc : bool) (t0 : option bool) (e : exc_obj),
    te_suppressed (timeout_on_exit raise_exc t0 (Some e)) = true ->
    raise_exc = false /\
    exists n last, (n <= 20)%nat /\ cause_chain n e last /\ exc_is_timeout last = true.
Proof. exact timeout_suppressed_only_timeouts. Qed.
Print Assumptions C56_only_timeouts_swallowed.

(** Without exception the flag keeps the value it had, initially "unknown". *)
Theorem C56_normal_exit :
  forall (raise_exc : bool) (t0 : option bool),
    te_timedout (timeout_on_exit raise_exc t0 None) = t0.
Proof. exact (fun _ _ => eq_refl). Qed.
Print Assumptions C56_normal_exit.

Theorem C56_timer :
  forall (t0 t1 t2 : Z) (tm : timer),
    snd (timer_exit t1 (timer_enter t0 tm)) = Ok tt /\
    timer_elapsed (fst (timer_exit t1 (timer_enter t0 tm))) = Ok (t1 - t0)%Z /\
    timer_elapsed_milisecs (fst (timer_exit t1 (timer_enter t0 tm))) = Ok ((t1 - t0) * 1000)%Z /\
    timer_elapsed (timer_enter t2 timer_init) = Raise ValueError /\
    timer_elapsed_milisecs (timer_enter t2 timer_init) = Raise ValueError.
Proof. exact timer_reports_difference. Qed.
Print Assumptions C56_timer.

(** Refuted: a timer that is still running says so.  One that has finished before is read as
    if it had not been started again. *)
Theorem C56_running_refuted :
  forall t0 t1 starts tm,
    timer_elapsed (fold_left (fun t now => timer_enter now t) starts (fst (timer_exit t1 (timer_enter t0 tm)))) =
    Ok (t1 - t0)%Z.
Proof. exact timer_running. Qed.
Print Assumptions C56_running_refuted.

Example C56_running_ex :
  timer_elapsed (timer_enter 100 (fst (timer_exit 7 (timer_enter 4 timer_init)))) = Ok 3%Z.
Proof. reflexivity. Qed.

(** A TimeoutError wrapped once is swallowed; behind 21 links it is not seen. *)
Example C56_example :
  timeout_on_exit false None (Some (ExcObj false (Some (ExcObj true None))))
  = mkExit (Some true) true /\
  timeout_on_exit false (Some true)
    (Some (Nat.iter 21 (fun e => ExcObj false (Some e)) (ExcObj true None)))
  = mkExit (Some false) false.
Proof. split; reflexivity. Qed.

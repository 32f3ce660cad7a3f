(** Model of yaocptool/util/util.py (vector and theta helpers) and
    yaocptool/util/timeout.py. *)
From Coq Require Import String.
From Verif Require Import Base.
Local Open Scope list_scope.

Section Vectors.
  Context {A : Type} (eqb : A -> A -> bool).

  (** yaocptool/util/util.py:28-46 [find_variables_indices_in_vector].
      [eqb vector_var v] is casadi's [is_equal(vector_var, v, depth)]. *)
  Definition find_variables_indices_in_vector (var vector : list A) : list nat :=
    flat_map
      (fun v => map fst (filter (fun iw => eqb (snd iw) v) (enumerate vector)))
      var.

  (** yaocptool/util/util.py:98-129 [remove_variables_from_vector_by_indices].
      The reshape of an empty result (lines 127-128) only changes the shape
      1x0 to 0x1, which the list model does not distinguish. *)
  Definition remove_variables_from_vector_by_indices
             (indices : list Z) (vector : list A) : res (list A) :=
    let numel := Z.of_nat (length vector) in
    let too_large := existsb (fun i => Z.ltb numel i) indices in
    let too_small := existsb (fun i => Z.ltb i (- numel)) indices in
    if too_large then Raise ValueError
    else if too_small then Raise ValueError
    else
      let remaining_ind :=
        filter (fun ind => negb (memb Z.eqb (Z.of_nat ind) indices))
               (seq 0 (length vector)) in
      Ok (gather vector remaining_ind).

  (** yaocptool/util/util.py:82-95 [remove_variables_from_vector]. *)
  Definition remove_variables_from_vector (var vector : list A) : res (list A) :=
    let to_remove := find_variables_indices_in_vector var vector in
    match to_remove with
    | [] => Raise ValueError
    | _ :: _ =>
        remove_variables_from_vector_by_indices (map Z.of_nat to_remove) vector
    end.
End Vectors.

Section Names.
  Context {A : Type}.
  (** [name v] is casadi's [v.name()]; [re_match pattern s] is whether Python's
      [re.match(pattern, s)] finds a match. *)
  Variable name : A -> string.
  Variable re_match : string -> string -> bool.

  (** yaocptool/util/util.py:49-79 [find_variables_in_vector_by_name]. *)
  Definition find_variables_in_vector_by_name
             (names : list string) (vector : list A) (exact : bool) : list A :=
    if exact then
      flat_map (fun n => filter (fun v => String.eqb (name v) n) vector) names
    else
      flat_map (fun regex => filter (fun v => re_match regex (name v)) vector) names.

  (** yaocptool/modelling/system_model.py:313-338 [get_variables_by_names]: the
      search over the groups of variables.  [groups] lists the vectors selected
      by [var_type], by default x, y, u, p, theta (line 328). *)
  Definition get_variables_by_names
             (names : list string) (groups : list (list A)) : list A :=
    flat_map (fun var => find_variables_in_vector_by_name names var false) groups.

  (** yaocptool/modelling/system_model.py:285-311 [get_variable_by_name]. *)
  Definition get_variable_by_name (n : string) (groups : list (list A)) : res A :=
    match get_variables_by_names [n] groups with
    | [v] => Ok v
    | _ :: _ :: _ => Raise ValueError
    | [] => Raise ValueError
    end.
End Names.

Section Thetas.
  (** The entries of the vectors stored in a theta dictionary. *)
  Context {A : Type}.
  Definition theta : Type := dict nat (list A).

  (** yaocptool/util/util.py:132-152 [create_constant_theta]: [rows] and [cols]
      are the two components of [dimension] after line 150. *)
  Definition create_constant_theta (constant : A) (rows cols finite_elements : nat)
    : theta :=
    map (fun i => (i, repeat constant (rows * cols))) (seq 0 finite_elements).

  (** yaocptool/util/util.py:166-179: the loop that checks sizes and collects
      keys. *)
  Fixpoint join_thetas_check (n_keys : nat) (args : list (option theta))
    : res (list nat) :=
    match args with
    | [] => Ok []
    | None :: args' => join_thetas_check n_keys args'
    | Some th :: args' =>
        let len := length (dkeys th) in
        let n_keys' := if Nat.eqb n_keys 0 then len else n_keys in
        if (0 <? len)%nat && negb (len =? n_keys')%nat then Raise ValueError
        else match join_thetas_check n_keys' args' with
             | Ok ks => Ok (dkeys th ++ ks)
             | Raise e => Raise e
             end
    end.

  (** yaocptool/util/util.py:184-186: the values of the arguments holding [i]. *)
  Definition theta_values (i : nat) (args : list (option theta)) : list (list A) :=
    flat_map (fun arg => match arg with
                         | None => []
                         | Some th => match dget Nat.eqb i th with
                                      | Some v => [v]
                                      | None => []
                                      end
                         end) args.

  (** yaocptool/util/util.py:155-188 [join_thetas].  The order of
      [list(set(all_keys))] is not specified by Python; the model keeps the
      order of last occurrence, and the theorems only speak about lookups. *)
  Definition join_thetas (args : list (option theta)) : res theta :=
    match join_thetas_check 0 args with
    | Raise e => Raise e
    | Ok ks => Ok (map (fun i => (i, concat (theta_values i args)))
                       (nodup Nat.eq_dec ks))
    end.
End Thetas.
Arguments theta : clear implicits.

(** yaocptool/util/util.py:323-351 [Timer].  The clock is [default_timer]; the
    state is the start stamp and the stored elapsed time. *)
Record timer := mkTimer { tm_start : option Z; tm_elapsed : option Z }.
(** util.py:324-328 [__init__]. *)
Definition timer_init : timer := mkTimer None None.
(** util.py:342-344 [__enter__]. *)
Definition timer_enter (now : Z) (t : timer) : timer := mkTimer (Some now) (tm_elapsed t).
(** util.py:346-351 [__exit__]; without a preceding [__enter__] the attribute
    [start] does not exist. *)
Definition timer_exit (now : Z) (t : timer) : timer * res unit :=
  match tm_start t with
  | None => (t, Raise AttributeError)
  | Some s => (mkTimer (Some s) (Some (now - s)%Z), Ok tt)
  end.
(** util.py:330-334 [elapsed]. *)
Definition timer_elapsed (t : timer) : res Z :=
  match tm_elapsed t with None => Raise ValueError | Some e => Ok e end.
(** util.py:336-340 [elapsed_milisecs]. *)
Definition timer_elapsed_milisecs (t : timer) : res Z :=
  match tm_elapsed t with None => Raise ValueError | Some e => Ok (e * 1000)%Z end.

(** An exception object: whether its type is exactly [TimeoutError], and the
    exception stored in its [__cause__]. *)
Inductive exc_obj : Type :=
| ExcObj (is_timeout : bool) (cause : option exc_obj).
Definition exc_is_timeout (e : exc_obj) : bool :=
  match e with ExcObj b _ => b end.
Definition exc_cause (e : exc_obj) : option exc_obj :=
  match e with ExcObj _ c => c end.

(** yaocptool/util/timeout.py:40-45: follow [__cause__] at most [depth] times. *)
Fixpoint follow_cause (depth : nat) (e : exc_obj) : exc_obj :=
  match depth with
  | O => e
  | S d => match exc_cause e with
           | None => e
           | Some c => follow_cause d c
           end
  end.

(** What leaving the [with] block does: the value of [timedout] and whether the
    exception is suppressed. *)
Record timeout_exit := mkExit { te_timedout : option bool; te_suppressed : bool }.

(** yaocptool/util/timeout.py:30-52 [__exit__].  [timedout0] is the value of
    [_timedout] when the block is left: [None] after [__init__], [Some true]
    once the alarm handler of lines 21-23 has run. *)
Definition timeout_on_exit (raise_exc : bool) (timedout0 : option bool)
           (value : option exc_obj) : timeout_exit :=
  match value with
  | None => mkExit timedout0 true
  | Some e =>
      let cause := follow_cause 20 e in
      if exc_is_timeout cause then mkExit (Some true) (negb raise_exc)
      else mkExit (Some false) false
  end.

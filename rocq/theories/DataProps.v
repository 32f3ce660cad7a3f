(** Property theorems C30-C32: data sets and simulation results. *)
From Coq Require Import String Sorted Permutation.
From Verif Require Import Base ExprModel SysModel SimModel DataModel DataSpec DataProofs.
Local Open Scope list_scope.

(** ** C30 *)

(** After any history of calls, failed ones included, every entry has one time stamp
    per column. *)
Theorem C30_one_time_per_column :
  forall default ops d,
    Forall proper ops -> consistent d -> consistent (run_caught (data_step default) ops d).
Proof. exact history_consistent. Qed.
Print Assumptions C30_one_time_per_column.

(** An insertion appends the given points to its entry and changes nothing else. *)
Theorem C30_insert :
  forall k time value d d',
    sized d -> consistent d -> insert_data k time value d = (d', Ok tt) ->
    exists e e', look k d = Some e /\ d' = put k e' d /\ same_labels e e' /\
      fits (e_values e) value /\ length (times_of time) = length (mcols value) /\
      points e' = points e ++ combine (times_of time) (mcols value) /\
      (e_values e <> null -> mrows (e_values e') = mrows (e_values e)) /\
      (e_values e = null -> mrows (e_values e') = mrows value).
Proof. exact insert_ok. Qed.
Print Assumptions C30_insert.

(** Writing an entry leaves the others alone. *)
Theorem C30_other_entries :
  forall k k' e d, k <> k' -> look k (put k' e d) = look k d.
Proof. exact look_put_other. Qed.
Print Assumptions C30_other_entries.

(** Which insertions are accepted; a rejected one changes nothing. *)
Theorem C30_insert_accepted_iff :
  forall k time value d,
    sized d ->
    (snd (insert_data k time value d) = Ok tt <->
     time <> TimeList [] /\ length (times_of time) = length (mcols value) /\
     exists e, look k d = Some e /\ fits (e_values e) value) /\
    (forall x, snd (insert_data k time value d) = Raise x -> fst (insert_data k time value d) = d).
Proof. exact insert_iff. Qed.
Print Assumptions C30_insert_accepted_iff.

(** Sorting puts every entry in chronological order, keeps all pairs and the order of
    equal times. *)
Theorem C30_sort :
  forall d d', consistent d -> sort None d = (d', Ok tt) ->
    dkeys d' = dkeys d /\
    forall k e, look k d = Some e -> exists e', look k d' = Some e' /\ same_labels e e' /\
      mrows (e_values e') = mrows (e_values e) /\ sorting (points e) (points e').
Proof. exact sort_all. Qed.
Print Assumptions C30_sort.

Theorem C30_sort_some :
  forall es d d', NoDup es -> sort (Some es) d = (d', Ok tt) ->
    dkeys d' = dkeys d /\
    forall k e, look k d = Some e -> exists e', look k d' = Some e' /\ same_labels e e' /\
      (In k es -> sorting (points e) (points e')) /\ (~ In k es -> e' = e).
Proof. exact sort_some. Qed.
Print Assumptions C30_sort_some.

Theorem C30_sort_accepted_iff :
  forall d, snd (sort None d) = Ok tt <-> (forall k e, look k d = Some e -> points e <> []).
Proof. exact sort_none_iff. Qed.
Print Assumptions C30_sort_accepted_iff.

(** Extending gives, per entry, the pairs of both in chronological order. *)
Theorem C30_extend :
  forall other d d',
    sized d -> consistent d -> consistent other -> extend other d = (d', Ok tt) ->
    compatible d other /\ filled d other /\ dkeys d' = dkeys d /\ consistent d' /\
    forall k e, look k d = Some e -> exists e1, look k d' = Some e1 /\ same_labels e e1 /\
      sorting (points e ++ match contents k other with Some l => l | None => [] end) (points e1).
Proof. exact extend_ok. Qed.
Print Assumptions C30_extend.

Theorem C30_extend_succeeds :
  forall other d,
    sized d -> consistent d -> consistent other -> compatible d other -> filled d other ->
    snd (extend other d) = Ok tt.
Proof. exact extend_succeeds. Qed.
Print Assumptions C30_extend_succeeds.

(** Refuted: the number of rows of an entry is its size.  The first insertion decides. *)
Theorem C30_rows_are_size_refuted :
  exists default ops d, run_all (data_step default) ops [] = (d, Ok tt) /\ Forall proper ops /\
    exists e, look "x" d = Some e /\ e_size e = Some 2%nat /\ mrows (e_values e) = 3%nat.
Proof. exact w_C30_rows_are_size_refuted. Qed.
Print Assumptions C30_rows_are_size_refuted.

(** Refuted: an entry without a size takes it from the data.  The call raises KeyError
    and the data is in. *)
Theorem C30_size_from_data_refuted :
  exists default d d', create_entry default "x" None (Some ["a"%string]) "plot" [] = (d, Ok tt) /\
    insert_data "x" (TimeNum 0%Q) (mkMat 1%nat [[5]]%Q) d = (d', Raise KeyError) /\
    contents "x" d = Some [] /\ contents "x" d' = Some [(0, [5])]%Q.
Proof. exact w_C30_size_from_data_refuted. Qed.
Print Assumptions C30_size_from_data_refuted.

(** A new entry has the names given, or as many default names as its size, numbered from
    zero, and no data; the other entries stay. *)
Theorem C30_create :
  forall default k size names style d d',
    create_entry default k size names style d = (d', Ok tt) ->
    exists e, look k d' = Some e /\ points e = [] /\ e_values e = null /\ e_size e = size /\ e_style e = style /\
      match names, size with
      | Some ns, _ => e_names e = ns
      | None, Some n => length (e_names e) = n /\ forall i, (i < n)%nat -> nth_error (e_names e) i = Some (default k i)
      | None, None => False
      end /\
      forall k', k' <> k -> look k' d' = look k' d.
Proof. exact create_ok. Qed.
Print Assumptions C30_create.

(** Only an entry with neither names nor a size is refused. *)
Theorem C30_create_refused :
  forall default k size names style d,
    snd (create_entry default k size names style d) <> Ok tt <-> names = None /\ size = None.
Proof. exact create_refused. Qed.
Print Assumptions C30_create_refused.

(** Refuted: creating an entry keeps the data stored under its name. *)
Theorem C30_create_keeps_refuted :
  exists default d d', consistent d /\ contents "x" d = Some [(0, [5])]%Q /\
    create_entry default "x" (Some 1%nat) None "plot" d = (d', Ok tt) /\ contents "x" d' = Some [].
Proof. exact w_C30_create_keeps_refuted. Qed.
Print Assumptions C30_create_keeps_refuted.

Example C30_ex :
  exists default ops d,
    Forall proper ops /\ run_all (data_step default) ops [] = (d, Ok tt) /\
    contents "x" d = Some [(1, [1; 1]); (2, [2; 2]); (2, [4; 4]); (3, [3; 3])]%Q /\
    contents "y" d = Some [(1, [7]); (5, [0])]%Q.
Proof.
  exists (fun _ _ => ""%string).
  exists [DCreate "x" (Some 2%nat) None "plot"; DCreate "y" (Some 1%nat) None "step";
          DInsert "x" (TimeList [3; 2]) (mkMat 2%nat [[3; 3]; [2; 2]]);
          DInsert "y" (TimeNum 5) (mkMat 1%nat [[0]]);
          DExtend [("y"%string, mkEntry ["v"%string] (Some 1%nat) [1] (mkMat 1%nat [[7]]) "plot");
                   ("x"%string, mkEntry ["a"%string; "b"%string] (Some 2%nat) [1; 2] (mkMat 2%nat [[1; 1]; [4; 4]]) "plot")]]%Q.
  eexists. split.
  - apply Forall_forall. intros op Hop.
    destruct Hop as [<-|[<-|[<-|[<-|[<-|[]]]]]]; simpl; [tauto|tauto|repeat constructor|repeat constructor|].
    split; [repeat constructor; simpl; [intros [H|[]]; discriminate|tauto]|].
    intros k e H. unfold look in H. simpl in H.
    destruct (String.eqb k "y"); [injection H as <-; split; [reflexivity|repeat constructor]|].
    destruct (String.eqb k "x"); [injection H as <-; split; [reflexivity|repeat constructor]|discriminate].
  - split; [vm_compute; reflexivity|]. split; vm_compute; reflexivity.
Qed.

(** ** C31 *)

(** Extending by a data set with an entry of its own always fails. *)
Theorem C31_unknown_entry_fails :
  forall other d,
    (exists k, look k other <> None /\ look k d = None) -> exists x, snd (extend other d) = Raise x.
Proof. exact extend_unknown. Qed.
Print Assumptions C31_unknown_entry_fails.

(** Refuted: a missing entry is copied from the other data set. *)
Theorem C31_missing_entry_copied_refuted :
  exists d other, consistent d /\ consistent other /\ sized d /\ sized other /\
    contents "x" other = Some [(0, [1])]%Q /\ look "x" d = None /\
    extend other d = (d, Raise KeyError).
Proof. exact w_C31_missing_entry_copied_refuted. Qed.
Print Assumptions C31_missing_entry_copied_refuted.

(** Refuted: entries without data are harmless, and a failed extension changes
    nothing.  Here the data of "x" is in although the call raised, because of the empty
    entry "y" of both. *)
Theorem C31_empty_entry_harmless_refuted :
  exists d other d', consistent d /\ consistent other /\ sized d /\ compatible d other /\
    contents "y" d = Some [] /\ contents "y" other = Some [] /\
    extend other d = (d', Raise ValueError) /\
    contents "x" d = Some [(0, [1])]%Q /\ contents "x" d' = Some [(0, [1]); (1, [2])]%Q.
Proof. exact w_C31_empty_entry_harmless_refuted. Qed.
Print Assumptions C31_empty_entry_harmless_refuted.

(** ** C32 *)

Theorem C32_extend :
  forall other r r', well_formed r -> well_formed other ->
    sim_extend other r = (r', Ok tt) ->
    same_sizes r other /\ well_formed r' /\
    smaller (r_t_0 r) (r_t_0 other) (r_t_0 r') /\ larger (r_t_f r) (r_t_f other) (r_t_f r') /\
    forall k e, look k (r_data r) = Some e -> exists e1, look k (r_data r') = Some e1 /\ same_labels e e1 /\
      sorting (points e ++ match contents k (r_data other) with Some l => l | None => [] end) (points e1).
Proof. exact sim_extend_ok. Qed.
Print Assumptions C32_extend.

(** Results of other dimensions are refused and nothing changes. *)
Theorem C32_other_sizes_refused :
  forall other r, well_formed r -> well_formed other -> ~ same_sizes r other ->
    sim_extend other r = (r, Raise AnyException).
Proof. exact sim_extend_refused. Qed.
Print Assumptions C32_other_sizes_refused.

(** The final condition is the data at the largest time. *)
Theorem C32_final_condition :
  forall r ex ey eu, well_formed r ->
    look "x" (r_data r) = Some ex -> look "y" (r_data r) = Some ey -> look "u" (r_data r) = Some eu ->
    (forall e, In e [ex; ey; eu] -> chronological (points e) /\ points e <> []) ->
    exists x y u, final_condition r = Ok (x, y, u) /\
      latest (points ex) x /\ latest (points ey) y /\ latest (points eu) u.
Proof. exact final_condition_latest. Qed.
Print Assumptions C32_final_condition.

(** A simulation returns the points it computed. *)
Theorem C32_simulation_points :
  forall default m t_0 t_f names s,
    one_height (s_x s) -> one_height (s_y s) -> one_height (s_u s) ->
    exists r, result_of default m t_0 t_f names s = Ok r /\ well_formed r /\
      contents "x" (r_data r) = Some (s_x s) /\ contents "y" (r_data r) = Some (s_y s) /\
      contents "u" (r_data r) = Some (s_u s) /\ r_t_0 r = t_0 /\ r_t_f r = last t_f t_0.
Proof. exact result_of_points. Qed.
Print Assumptions C32_simulation_points.

(** A new result has the sizes and times given, and no points. *)
Theorem C32_new_result :
  forall default n_x n_y n_u names t_0 t_f n,
    let r := new_sim_result default n_x n_y n_u names t_0 t_f n in
    r_t_0 r = t_0 /\ r_t_f r = t_f /\
    dim "x" r = Ok (Some n_x) /\ dim "y" r = Ok (Some n_y) /\ dim "u" r = Ok (Some n_u) /\
    contents "x" (r_data r) = Some [] /\ contents "y" (r_data r) = Some [] /\ contents "u" (r_data r) = Some [].
Proof. exact new_result. Qed.
Print Assumptions C32_new_result.

(** Refuted: the result knows its number of elements.  It is zero whatever is given. *)
Theorem C32_elements_refuted :
  forall default n_x n_y n_u names t_0 t_f n,
    r_elements (new_sim_result default n_x n_y n_u names t_0 t_f n) = 0%nat.
Proof. exact w_C32_elements_refuted. Qed.
Print Assumptions C32_elements_refuted.

(** Refuted: a failed extension changes nothing.  The times are updated before the data. *)
Theorem C32_failed_extension_atomic_refuted :
  exists r other r', well_formed r /\ well_formed other /\ same_sizes r other /\
    sim_extend other r = (r', Raise ValueError) /\ r_t_f r = 1%Q /\ r_t_f r' = 2%Q /\ r_data r' = r_data r.
Proof. exact w_C32_failed_extension_atomic_refuted. Qed.
Print Assumptions C32_failed_extension_atomic_refuted.

(** Two simulations, the second from the end of the first: the state at the common time
    is stored twice. *)
Example C32_ex :
  let s1 := mkSim [(0, [1]); (1, [2])]%Q [(1, [9])]%Q [(1, [0])]%Q in
  let s2 := mkSim [(1, [2]); (3, [4])]%Q [(3, [8])]%Q [(3, [0])]%Q in
  let m := set_x [10%nat] (new_model 1 2) in
  let names := (None, None, None) in
  exists r1 r2 r', result_of (fun _ _ => ""%string) m 0%Q [1%Q] names s1 = Ok r1 /\
    result_of (fun _ _ => ""%string) m 1%Q [3%Q] names s2 = Ok r2 /\
    sim_extend r2 r1 = (r', Ok tt) /\
    contents "x" (r_data r') = Some [(0, [1]); (1, [2]); (1, [2]); (3, [4])]%Q /\
    r_t_0 r' = 0%Q /\ r_t_f r' = 3%Q /\ final_condition r' = Ok ([4], [8], [0])%Q.
Proof.
  cbv zeta. eexists. eexists. eexists. split; [vm_compute; reflexivity|]. split; [vm_compute; reflexivity|].
  split; [vm_compute; reflexivity|]. repeat split; vm_compute; reflexivity.
Qed.

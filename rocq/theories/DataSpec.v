(** Vocabulary for the properties of data sets. *)
From Coq Require Import String Sorted Permutation.
From Verif Require Import Base ExprModel SysModel SimModel DataModel.
Local Open Scope list_scope.

(** What an entry stores: the time stamps with their columns. *)
Definition points (e : entry) : list (Q * list Q) := combine (e_time e) (mcols (e_values e)).
Definition contents (k : string) (d : dataset) : option (list (Q * list Q)) :=
  option_map points (look k d).

(** As many columns as time stamps, and columns of one height. *)
Definition entry_consistent (e : entry) : Prop :=
  length (e_time e) = length (mcols (e_values e)) /\
  Forall (fun c => length c = mrows (e_values e)) (mcols (e_values e)).
Definition consistent (d : dataset) : Prop :=
  NoDup (dkeys d) /\ forall k e, look k d = Some e -> entry_consistent e.

(** A matrix is rectangular. *)
Definition rectangular (m : mat) : Prop := Forall (fun c => length c = mrows m) (mcols m).

(** The calls insert rectangular matrices and extend with consistent data sets. *)
Definition proper (op : data_op) : Prop :=
  match op with
  | DInsert _ _ v => rectangular v
  | DExtend o => consistent o
  | _ => True
  end.

(** Every entry has a known size. *)
Definition sized (d : dataset) : Prop := forall k e, look k d = Some e -> e_size e <> None.

(** Chronological order, and a rearrangement that keeps the order of equal times. *)
Definition chronological (l : list (Q * list Q)) : Prop :=
  StronglySorted (fun a b => (fst a <= fst b)%Q) l.
Definition at_time (t : Q) (l : list (Q * list Q)) : list (Q * list Q) :=
  filter (fun p => Qeq_bool t (fst p)) l.
Definition sorting (old new : list (Q * list Q)) : Prop :=
  chronological new /\ Permutation old new /\ forall t, at_time t new = at_time t old.

(** Two entries differ in their data only. *)
Definition same_labels (e e' : entry) : Prop :=
  e_names e' = e_names e /\ e_size e' = e_size e /\ e_style e' = e_style e.

(** The times written in an argument. *)
Definition times_of (t : time_arg) : list Q :=
  match t with TimeList l => l | TimeNum q => [q] | TimeRow l => l end.

(** A matrix can be put beside another. *)
Definition fits (a b : mat) : Prop := a = null \/ b = null \/ mrows a = mrows b.

(** One data set can be extended by another: each of the other's entries exists with
    the same size and height. *)
Definition compatible (d other : dataset) : Prop :=
  forall k e', look k other = Some e' ->
    exists e, look k d = Some e /\ e_size e = e_size e' /\ fits (e_values e) (e_values e').
Definition filled (d other : dataset) : Prop :=
  forall k e, look k d = Some e ->
    points e <> [] \/ exists e', look k other = Some e' /\ points e' <> [].

(** [c] is the column stored last, at a time no other exceeds. *)
Definition latest (l : list (Q * list Q)) (c : list Q) : Prop :=
  exists pre t, l = pre ++ [(t, c)] /\ Forall (fun p => (fst p <= t)%Q) l.

(** A simulation result: the three entries of known size. *)
Definition well_formed (r : sim_result) : Prop :=
  consistent (r_data r) /\ sized (r_data r) /\
  look "x" (r_data r) <> None /\ look "y" (r_data r) <> None /\ look "u" (r_data r) <> None.
Definition size_of (k : string) (r : sim_result) : option (option nat) :=
  option_map e_size (look k (r_data r)).
Definition same_sizes (r s : sim_result) : Prop :=
  size_of "x" r = size_of "x" s /\ size_of "y" r = size_of "y" s /\ size_of "u" r = size_of "u" s.
Definition smaller (a b m : Q) : Prop := (m = a \/ m = b) /\ (m <= a)%Q /\ (m <= b)%Q.
Definition larger (a b m : Q) : Prop := (m = a \/ m = b) /\ (a <= m)%Q /\ (b <= m)%Q.
Definition one_height (l : list (Q * list Q)) : Prop :=
  l <> [] /\ exists n, Forall (fun p => length (snd p) = n) l.

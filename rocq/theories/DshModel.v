(** Data sets as objects: every entry is an object of its own, and data sets refer to their
    entries (modelling/dataset.py). *)
From Coq Require Import String.
From Verif Require Import Base ExprModel SysModel SimModel DataModel.
Local Open Scope list_scope.
Local Open Scope nat_scope.
Local Open Scope cmd_scope.

(** The [Entry] objects (dataset.py:19-29) and the data sets, each with its dictionary [data]
    (dataset.py:53), by number.  Matrices and lists of names are never changed in place. *)
Record memory := mkMemory { m_entries : list entry; m_sets : list (dict string nat) }.
Fixpoint replace {A : Type} (l : list A) (i : nat) (x : A) : list A :=
  match l, i with
  | [], _ => []
  | _ :: l', 0 => x :: l'
  | a :: l', S i' => a :: replace l' i' x
  end.

(** [self.data[k]] of data set [h]. *)
Definition address (h : nat) (k : string) (m : memory) : option nat :=
  match nth_error (m_sets m) h with Some d => dget String.eqb k d | None => None end.
Definition find (h : nat) (k : string) (m : memory) : option entry :=
  match address h k m with Some a => nth_error (m_entries m) a | None => None end.
(** Attributes of [self.data[k]] are assigned: the object is changed. *)
Definition assign (h : nat) (k : string) (f : entry -> res entry) : cmd memory unit :=
  fun m => match address h k m, find h k m with
           | Some a, Some e => match f e with
                               | Ok e' => (mkMemory (replace (m_entries m) a e') (m_sets m), Ok tt)
                               | Raise x => (m, Raise x)
                               end
           | _, _ => (m, Raise KeyError)
           end.

(** dataset.py:32-53: a new data set. *)
Definition new_set : cmd memory nat :=
  fun m => (mkMemory (m_entries m) (m_sets m ++ [[]]), Ok (length (m_sets m))).

(** dataset.py:82-102 [create_entry]: a new object; an old one with that name is dropped. *)
Definition create (default : string -> nat -> string) (h : nat) (k : string) (size : nat)
    (names : option (list string)) (style : string) : cmd memory unit :=
  fun m => match nth_error (m_sets m) h with
           | None => (m, Raise KeyError)
           | Some d =>
               let ns := match names with Some ns => ns | None => map (default k) (seq 0 size) end in
               (mkMemory (m_entries m ++ [mkEntry ns (Some size) [] null style])
                         (replace (m_sets m) h (dset String.eqb k (length (m_entries m)) d)), Ok tt)
           end.

(** dataset.py:132-154 [insert_data]. *)
Definition insert (h : nat) (k : string) (time : time_arg) (value : mat) : cmd memory unit :=
  fun m =>
    match time_row time with
    | Raise x => (m, Raise x)
    | Ok ts =>
        (cguard (fun _ => negb (length ts =? length (mcols value))) ValueError ;;;
         assign h k (fun e => match horzcat (e_values e) value with Ok v => Ok (set_e_values v e) | Raise x => Raise x end) ;;;
         assign h k (fun e => Ok (set_e_time (e_time e ++ ts) e)) ;;;
         (fun m => match find h k m with
                   | Some (mkEntry _ None _ _ _) => assign h "entry" (fun e => Ok (set_e_size (Some (mrows value)) e)) m
                   | _ => (m, Ok tt)
                   end)) m
    end.

(** dataset.py:198-224 [sort]. *)
Definition sort_one (h : nat) (k : string) : cmd memory unit :=
  assign h k (fun e => match sort_points (combine (e_time e) (mcols (e_values e))) with
                       | [] => Raise ValueError
                       | ps => Ok (set_e_values (mkMat (mrows (e_values e)) (map snd ps)) (set_e_time (map fst ps) e))
                       end).
Definition keys (h : nat) (m : memory) : list string :=
  match nth_error (m_sets m) h with Some d => dkeys d | None => [] end.
Definition sort_set (h : nat) (entries : option (list string)) : cmd memory unit :=
  fun m => run_all (sort_one h) (match entries with Some l => l | None => keys h m end) m.

(** dataset.py:168-196 [extend]; [h] and [other] may be the same data set. *)
Definition extend_one (h other : nat) (k : string) : cmd memory unit :=
  fun m =>
    match find h k m, find other k m with
    | Some e, Some e' =>
        if size_eqb (e_size e) (e_size e')
        then insert h k (TimeRow (e_time e')) (e_values e') m
        else (m, Raise ValueError)
    | _, _ => (m, Raise KeyError)
    end.
Definition extend_set (h other : nat) : cmd memory unit :=
  fun m => (run_all (extend_one h other) (keys other m) ;;; sort_set h None) m.

(** dataset.py:156-166 [get_copy]: [copy.copy(self)], and a deep copy of [data].  Within one
    dictionary no object occurs twice. *)
Fixpoint copy_entries (m : memory) (d : dict string nat) (first : nat) : list entry * dict string nat :=
  match d with
  | [] => ([], [])
  | (k, a) :: d' =>
      match nth_error (m_entries m) a with
      | Some e => let (es, d'') := copy_entries m d' (S first) in (e :: es, (k, first) :: d'')
      | None => copy_entries m d' first
      end
  end.
Definition get_copy (h : nat) : cmd memory nat :=
  fun m => match nth_error (m_sets m) h with
           | None => (m, Raise KeyError)
           | Some d => let (es, d') := copy_entries m d (length (m_entries m)) in
                       (mkMemory (m_entries m ++ es) (m_sets m ++ [d']), Ok (length (m_sets m)))
           end.

(** Calls on data sets that exist; others are not made. *)
Inductive set_op :=
| NewSet
| CopySet (h : nat)
| Create (h : nat) (k : string) (size : nat) (names : option (list string)) (style : string)
| Insert (h : nat) (k : string) (time : time_arg) (value : mat)
| Sort (h : nat) (entries : option (list string))
| Extend (h other : nat).
Definition there (m : memory) (h : nat) : bool := h <? length (m_sets m).
Definition unit_of {A : Type} (c : cmd memory A) : cmd memory unit := c ;;; cret tt.
Definition set_step (default : string -> nat -> string) (op : set_op) : cmd memory unit :=
  fun m =>
    match op with
    | NewSet => unit_of new_set m
    | CopySet h => if there m h then unit_of (get_copy h) m else (m, Ok tt)
    | Create h k size names style => if there m h then create default h k size names style m else (m, Ok tt)
    | Insert h k time value => if there m h then insert h k time value m else (m, Ok tt)
    | Sort h entries => if there m h then sort_set h entries m else (m, Ok tt)
    | Extend h other => if (there m h && there m other)%bool then extend_set h other m else (m, Ok tt)
    end.

(** Vocabulary for data sets as objects: what every data set holds, and how the calls change
    it, one data set at a time. *)
From Coq Require Import String.
From Verif Require Import Base ExprModel DataModel DshModel.
Local Open Scope list_scope.
Local Open Scope nat_scope.

(** What data set [h] holds. *)
Definition holds (m : memory) (h : nat) (d : dataset) : Prop :=
  exists r, nth_error (m_sets m) h = Some r /\
    Forall2 (fun ka ke => fst ka = fst ke /\ nth_error (m_entries m) (snd ka) = Some (snd ke)) r d.

(** The data sets as values: a copy is a further value, and every other call changes the value
    it is made for as if it were alone (the calls of C30 and C31). *)
Definition at_place (w : list dataset) (h : nat) (c : cmd dataset unit) : list dataset * res unit :=
  match nth_error w h with
  | None => (w, Ok tt)
  | Some d => (firstn h w ++ fst (c d) :: skipn (S h) w, snd (c d))
  end.
Definition alone (default : string -> nat -> string) (op : set_op) (w : list dataset) : list dataset * res unit :=
  match op with
  | NewSet => (w ++ [[]], Ok tt)
  | CopySet h => match nth_error w h with Some d => (w ++ [d], Ok tt) | None => (w, Ok tt) end
  | Create h k size names style => at_place w h (create_entry default k (Some size) names style)
  | Insert h k time value => at_place w h (insert_data k time value)
  | Sort h entries => at_place w h (sort entries)
  | Extend h other => match nth_error w other with Some o => at_place w h (extend o) | None => (w, Ok tt) end
  end.
(** The data set that a call changes. *)
Definition changes (op : set_op) : option nat :=
  match op with
  | NewSet | CopySet _ => None
  | Create h _ _ _ _ => Some h
  | Insert h _ _ _ => Some h
  | Sort h _ => Some h
  | Extend h _ => Some h
  end.

(** The results of a list of calls, exceptions caught. *)
Fixpoint outcomes {S O A : Type} (step : O -> S -> S * res A) (ops : list O) (s : S) : list (res A) :=
  match ops with [] => [] | o :: ops' => snd (step o s) :: outcomes step ops' (fst (step o s)) end.

Definition empty : memory := mkMemory [] [].
(** A measurement is stored, the data set is copied, and both go on. *)
Definition two_logs : list set_op :=
  [NewSet; Create 0 "x" 1 None "plot"; Insert 0 "x" (TimeNum 1%Q) (mkMat 1 [[5%Q]]);
   CopySet 0; Insert 1 "x" (TimeNum 0%Q) (mkMat 1 [[7%Q]]); Sort 1 None; Insert 0 "x" (TimeNum 2%Q) (mkMat 1 [[6%Q]]);
   Extend 0 1; Extend 1 1].
Definition plain (k : string) (i : nat) : string := k.

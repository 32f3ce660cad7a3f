(** Vocabulary for the table of a data set. *)
From Coq Require Import String QArith.
From Verif Require Import Base DataModel FraModel.
Local Open Scope list_scope.

(** The entries that have names. *)
Definition named (d : dataset) : dataset := filter (fun ke => match e_names (snd ke) with [] => false | _ => true end) d.

(** The entry has one column of values for every time, with one number for every name. *)
Definition filled (e : entry) : Prop :=
  length (mcols (e_values e)) = length (e_time e) /\ mrows (e_values e) = length (e_names e).

(** The entry was given the values [v] for the time [t]. *)
Definition recorded (e : entry) (t : Q) (v : list Q) : Prop :=
  exists i t', nth_error (e_time e) i = Some t' /\ (t' == t)%Q /\ nth_error (mcols (e_values e)) i = Some v.

(** What a row of the time [t] shows of an entry: values it was given for that time, or
    nothing if there are none. *)
Definition shows (e : entry) (t : Q) (cells : list (option Q)) : Prop :=
  (exists v, recorded e t v /\ cells = map Some v) \/
  ((forall v, ~ recorded e t v) /\ cells = repeat None (length (e_names e))).

(** The table has a row with the time [t] and these cells. *)
Definition has_row (f : frame) (t : Q) (cells : list (option Q)) : Prop :=
  exists t', (t' == t)%Q /\ In (t', cells) (f_rows f).

(** Example: a tank, with its level measured at 0, 1 and 3, and its pump set at 1 and 2. *)
Definition tank : dataset :=
  [("x"%string, mkEntry ["level"; "flow"]%string (Some 2%nat) [0; 1; 3]%Q (mkMat 2 [[5; 1]; [6; 2]; [7; 3]]%Q) "plot"%string);
   ("y"%string, mkEntry [] (Some 0%nat) [] null "plot"%string);
   ("u"%string, mkEntry ["pump"]%string (Some 1%nat) [1; 2]%Q (mkMat 1 [[8]; [9]]%Q) "step"%string)].
(** Two values at the same time in both entries. *)
Definition tank_twice : dataset :=
  [("x"%string, mkEntry ["level"]%string (Some 1%nat) [1; 1]%Q (mkMat 1 [[5]; [6]]%Q) "plot"%string);
   ("u"%string, mkEntry ["pump"]%string (Some 1%nat) [1; 1]%Q (mkMat 1 [[8]; [9]]%Q) "step"%string)].

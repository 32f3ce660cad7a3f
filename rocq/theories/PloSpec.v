(** Vocabulary for the lines of a plot. *)
From Coq Require Import String.
From Verif Require Import Base ExprModel DataModel PloModel.
Local Open Scope list_scope.
Local Open Scope nat_scope.

(** The index [i], which may be negative, stands for position [r] of [n]. *)
Definition stands_for (n : nat) (i : Z) (r : nat) : Prop :=
  r < n /\ (i = Z.of_nat r \/ i = Z.of_nat r - Z.of_nat n)%Z.
(** Position [r] is the first one with that name. *)
Definition first_at (names : list string) (s : string) (r : nat) : Prop :=
  nth_error names r = Some s /\ ~ In s (firstn r names).

(** A text stands for the rows whose names it matches as a pattern, and if there are none for
    the row with just that name; with [exact] for the latter only. *)
Definition no_pattern (re : string -> string -> res bool) (names : list string) (s : string) : Prop :=
  forall n, In n names -> re s n = Ok false.
Definition names_row (re : string -> string -> res bool) (exact : bool) (names : list string) (s : string) (r : nat) : Prop :=
  if exact then first_at names s r
  else (exists n, re s n = Ok true /\ first_at names n r) \/ (no_pattern re names s /\ first_at names s r).

(** Row [r] of the entry is asked for. *)
Definition asks_for (re : string -> string -> res bool) (exact : bool) (e : entry) (a : asked) (r : nat) : Prop :=
  match a with
  | Everything => exists n, e_size e = Some n /\ r < n
  | Chosen l => (exists i, In (Index i) l /\ stands_for (length (e_names e)) i r) \/
                (exists s, In (Text s) l /\ names_row re exact (e_names e) s r)
  end.

(** The line shows row [r] of entry [k] with its name and its plot style. *)
Definition shows (d : dataset) (k : string) (r : nat) (l : line) : Prop :=
  l_entry l = k /\ l_row l = r /\ exists e, look k d = Some e /\
  nth_error (e_names e) r = Some (l_label l) /\ l_style l = e_style e /\ l_time l = e_time e /\
  l_values l = map (fun c => nth r c 0%Q) (mcols (e_values e)) /\ r < mrows (e_values e).

(** Every row with data has a name. *)
Definition labelled (d : dataset) : Prop :=
  forall k e, look k d = Some e -> e_values e = null \/ mrows (e_values e) = length (e_names e).

(** What can be drawn: every entry exists and has a plot style and data, and everything asked
    for is there.  [defined]: the texts are patterns. *)
Definition defined (re : string -> string -> res bool) (e : entry) (a : asked) : Prop :=
  match a with Everything => True | Chosen l => forall s n, In (Text s) l -> In n (e_names e) -> exists b, re s n = Ok b end.
Definition found (re : string -> string -> res bool) (exact : bool) (e : entry) (a : asked) : Prop :=
  match a with
  | Everything => exists n, e_size e = Some n /\ n <= length (e_names e) /\ n <= mrows (e_values e)
  | Chosen l => (forall i, In (Index i) l -> exists r, stands_for (length (e_names e)) i r /\ r < mrows (e_values e)) /\
                (forall s, In (Text s) l -> exists r, names_row re exact (e_names e) s r) /\
                ((exists s, In (Text s) l) -> e_values e <> null)
  end.
Definition nothing (a : asked) (e : entry) : Prop :=
  match a with Everything => e_size e = Some 0 | Chosen l => l = [] end.
Definition drawable (re : string -> string -> res bool) (exact : bool) (d : dataset) (request : drawing) : Prop :=
  forall k a, In (k, a) request -> exists e, look k d = Some e /\ found re exact e a /\
    (e_style e = "plot"%string \/ e_style e = "step"%string \/ nothing a e).

(** Without dictionaries there is a figure each for the states, the algebraic variables and the
    controls. *)
Definition plots (requests : list drawing) : list drawing :=
  match requests with
  | [] => [[("x"%string, Everything)]; [("y"%string, Everything)]; [("u"%string, Everything)]]
  | _ => requests
  end.

(** The dictionaries without the patterns that match. *)
Definition left_over (re : string -> string -> res bool) (names : list string) (old new : list item) : Prop :=
  exists keep : item -> bool, new = filter keep old /\
    (forall i, keep (Index i) = true) /\ forall s, In (Text s) old -> (keep (Text s) = true <-> no_pattern re names s).
Definition left_asked (re : string -> string -> res bool) (d : dataset) (old new : string * asked) : Prop :=
  fst new = fst old /\
  match snd old, snd new with
  | Everything, Everything => True
  | Chosen l, Chosen l' => exists e, look (fst old) d = Some e /\ left_over re (e_names e) l l'
  | _, _ => False
  end.

(** ** A data set with three states *)

Definition levels_data : dataset :=
  [("x"%string, mkEntry ["h_1"; "h_2"; "flow"]%string (Some 3) [0; 1]%Q (mkMat 3 [[1; 2; 3]; [4; 5; 6]]%Q) "plot");
   ("u"%string, mkEntry ["pump"]%string (Some 1) [0]%Q (mkMat 1 [[7]]%Q) "step")].
(** Patterns without special characters match the names that they begin. *)
Definition begins (p n : string) : res bool := Ok (String.prefix p n).

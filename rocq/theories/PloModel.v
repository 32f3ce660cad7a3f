(** Which lines a plot of a data set shows (modelling/dataset.py:240-369).  The figures and
    lines of matplotlib and seaborn are values here; [use_tex] and [show] are not modelled. *)
From Coq Require Import String.
From Verif Require Import Base ExprModel SysModel SimModel DataModel DiscModel ResModel.
Local Open Scope list_scope.
Local Open Scope nat_scope.
Local Open Scope cmd_scope.

(** An element of the list given for an entry, and what is given for it: a string, which
    whatever it is means all rows, or a list, which belongs to the caller. *)
Inductive item := Index (i : Z) | Text (s : string).
Inductive asked := Everything | Chosen (l : list item).
(** One dictionary of [plot_list].  Lists of different entries are different objects. *)
Definition drawing := list (string * asked).

(** A line in a figure: the entry, the row of its values, and what is handed to the plotting
    library. *)
Record line := mkLine { l_entry : string; l_row : nat; l_label : string; l_style : string; l_time : list Q; l_values : list Q }.
(** A figure of the list [figures] or the one that [plt.figure(k)] returns. *)
Inductive figure := Given (n : nat) | Numbered (k : nat).

(** [l[i]] with Python's negative indices. *)
Definition position (n : nat) (i : Z) : option nat :=
  if ((0 <=? i) && (i <? Z.of_nat n))%Z then Some (Z.to_nat i)
  else if ((- Z.of_nat n <=? i) && (i <? 0))%Z then Some (Z.to_nat (Z.of_nat n + i))
  else None.

(** [re p name] is [bool(re.match(p, name))], or the error of a pattern that is none. *)
Section Plot.
  Variable re : string -> string -> res bool.

  (** dataset.py:329-333. *)
  Fixpoint matching (p : string) (names : list string) : res (list string) :=
    match names with
    | [] => Ok []
    | n :: l => match re p n with
                | Raise e => Raise e
                | Ok b => match matching p l with
                          | Raise e => Raise e
                          | Ok ms => Ok (if b then n :: ms else ms)
                          end
                end
    end.
  (** [indexes_or_names.remove(regex)]: the first one. *)
  Fixpoint remove_text (p : string) (l : list item) : list item :=
    match l with
    | [] => []
    | Text s :: l' => if String.eqb s p then l' else Text s :: remove_text p l'
    | a :: l' => a :: remove_text p l'
    end.
  (** dataset.py:325-336: over a copy of the list; the list of the caller loses the patterns
      that match. *)
  Fixpoint match_all (names : list string) (copy : list item) (found : list string) : cmd (list item) (list string) :=
    match copy with
    | [] => cret found
    | Index _ :: copy' => match_all names copy' found
    | Text p :: copy' =>
        ms <~ cres (matching p names) ;;
        (match ms with [] => cret tt | _ => cmodify (remove_text p) end) ;;;
        match_all names copy' (found ++ ms)
    end.

  Definition indices (l : list item) : list Z := flat_map (fun a => match a with Index i => [i] | Text _ => [] end) l.
  Definition texts (l : list item) : list string := flat_map (fun a => match a with Index _ => [] | Text s => [s] end) l.
  (** [var_names.index(item)]. *)
  Definition name_position (names : list string) (s : string) : res Z :=
    match index_of s names with Some i => Ok (Z.of_nat i) | None => Raise ValueError end.

  (** dataset.py:316-343: the rows, in the order they are drawn. *)
  Definition rows_of (exact : bool) (e : entry) : cmd asked (list Z) :=
    fun a =>
      match a with
      | Everything => (Everything, match e_size e with Some n => Ok (map Z.of_nat (seq 0 n)) | None => Raise TypeError end)
      | Chosen l =>
          match (if exact then cret [] else match_all (e_names e) l []) l with
          | (l', Raise x) => (Chosen l', Raise x)
          | (l', Ok found) =>
              (Chosen l', match res_map (name_position (e_names e)) (texts l' ++ found) with
                          | Raise x => Raise x
                          | Ok more => Ok (indices l ++ more)
                          end)
          end
      end.

  (** dataset.py:345-359 with [_plot_entry] (240-264); [data_vector[row, :]] refuses other
      rows. *)
  Definition draw_row (k : string) (e : entry) (i : Z) : res line :=
    match position (length (e_names e)) i with
    | None => Raise IndexError
    | Some j =>
        match at_index (e_names e) j IndexError with
        | Raise x => Raise x
        | Ok label =>
            if (String.eqb (e_style e) "plot" || String.eqb (e_style e) "step")%bool
            then match position (mrows (e_values e)) i with
                 | None => Raise CasadiError
                 | Some r => Ok (mkLine k r label (e_style e) (e_time e) (map (fun c => nth r c 0%Q) (mcols (e_values e))))
                 end
            else Raise ValueError
        end
    end.

  (** dataset.py:309-360: one figure.  What is drawn before an error is lost here. *)
  Fixpoint draw (exact : bool) (d : dataset) (request : drawing) : drawing * res (list line) :=
    match request with
    | [] => ([], Ok [])
    | (k, a) :: rest =>
        match look k d with
        | None => (request, Raise AnyException)
        | Some e =>
            match rows_of exact e a with
            | (a', Raise x) => ((k, a') :: rest, Raise x)
            | (a', Ok is) =>
                match res_map (draw_row k e) is with
                | Raise x => ((k, a') :: rest, Raise x)
                | Ok ls => match draw exact d rest with
                           | (rest', Raise x) => ((k, a') :: rest', Raise x)
                           | (rest', Ok ms) => ((k, a') :: rest', Ok (ls ++ ms))
                           end
                end
            end
        end
    end.

  (** dataset.py:302-306: [len(figures) < k]. *)
  Definition figure_of (figures : option (list nat)) (k : nat) : res figure :=
    match figures with
    | Some fs => if length fs <? k
                 then match at_index fs k IndexError with Ok f => Ok (Given f) | Raise e => Raise e end
                 else Ok (Numbered k)
    | None => Ok (Numbered k)
    end.
  (** dataset.py:300-363. *)
  Fixpoint draw_from (exact : bool) (d : dataset) (figures : option (list nat)) (k : nat) (requests : list drawing)
    : list drawing * res (list (figure * list line)) :=
    match requests with
    | [] => ([], Ok [])
    | r :: rest =>
        match figure_of figures k with
        | Raise x => (requests, Raise x)
        | Ok f =>
            match draw exact d r with
            | (r', Raise x) => (r' :: rest, Raise x)
            | (r', Ok ls) =>
                match draw_from exact d figures (S k) rest with
                | (rest', Raise x) => (r' :: rest', Raise x)
                | (rest', Ok out) => (r' :: rest', Ok ((f, ls) :: out))
                end
            end
        end
    end.
  (** dataset.py:266-369 [plot]: the dictionaries of the caller after the call, and the
      figures with their lines. *)
  Definition by_default : list drawing := [[("x"%string, Everything)]; [("y"%string, Everything)]; [("u"%string, Everything)]].
  Definition plot (exact : bool) (d : dataset) (figures : option (list nat)) : cmd (list drawing) (list (figure * list line)) :=
    fun requests =>
      match requests with
      | [] => ([], snd (draw_from exact d figures 0 by_default))
      | _ => draw_from exact d figures 0 requests
      end.
End Plot.

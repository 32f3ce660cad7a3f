(** Model of the table of a data set: yaocptool/modelling/dataset.py:55-81 (below: ds)
    [DataSet.as_dataframe], with the pandas functions it uses. *)
From Coq Require Import String QArith.
From Verif Require Import Base DataModel.
Local Open Scope list_scope.
Local Open Scope res_scope.

(** A pandas [DataFrame] whose index are times: its columns, and its rows from the first to
    the last.  [None] is a missing value (NaN). *)
Record frame := mkFrame { f_columns : list (string * string); f_rows : list (Q * list (option Q)) }.

(** ds:27-29 [Entry.is_empty]: an entry without names. *)
Definition is_empty (e : entry) : bool := match e_names e with [] => true | _ => false end.

(** ds:60-67: the table of one entry.  pandas refuses values whose numbers of rows and
    columns are not those of the index and of the columns.  The nonzeros [nz] of the time
    row are its elements: the row is dense. *)
Definition entry_frame (k : string) (e : entry) : res frame :=
  if ((length (mcols (e_values e)) =? length (e_time e)) && (mrows (e_values e) =? length (e_names e)))%nat%bool
  then Ok (mkFrame (map (fun name => (k, name)) (e_names e))
                   (combine (e_time e) (map (map Some) (mcols (e_values e)))))
  else Raise ValueError.

Section Merge.
  (** The order in which pandas puts the rows of a merged table. *)
  Variable arrange : list (Q * list (option Q)) -> list (Q * list (option Q)).

  (** ds:70-76 [pd.merge(a, b, how="outer", left_index=True, right_index=True)]: every row
      of [a] with every row of [b] of the same time, and with missing values if there is
      none; then the rows of [b] whose time is not in [a].  The columns of [a] and [b] are
      different: they begin with the names of the entries. *)
  Definition outer_merge (a b : frame) : frame :=
    mkFrame (f_columns a ++ f_columns b)
      (arrange
         (flat_map (fun ra => match filter (fun rb => Qeq_bool (fst ra) (fst rb)) (f_rows b) with
                              | [] => [(fst ra, snd ra ++ repeat None (length (f_columns b)))]
                              | l => map (fun rb => (fst ra, snd ra ++ snd rb)) l
                              end) (f_rows a) ++
          map (fun rb => (fst rb, repeat None (length (f_columns a)) ++ snd rb))
              (filter (fun rb => negb (existsb (fun ra => Qeq_bool (fst ra) (fst rb)) (f_rows a))) (f_rows b)))).

  (** ds:57-79: the loop over the entries. *)
  Fixpoint merge_entries (df : option frame) (d : dataset) : res (option frame) :=
    match d with
    | [] => Ok df
    | (k, e) :: d' =>
        if is_empty e then merge_entries df d'
        else entry_df <- entry_frame k e ;;
             merge_entries (Some (match df with Some a => outer_merge a entry_df | None => entry_df end)) d'
    end.

  (** ds:55-81; without a table [df.index] fails. *)
  Definition as_dataframe (d : dataset) : res frame :=
    df <- merge_entries None d ;;
    match df with Some f => Ok f | None => Raise AttributeError end.
End Merge.

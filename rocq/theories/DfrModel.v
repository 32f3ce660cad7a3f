(** Model of the tables of the result of a distributed method:
    yaocptool/methods/base/distributed_optimization_result.py (below: dor). *)
From Coq Require Import String QArith.
From Verif Require Import Base DataModel FraModel.
Local Open Scope list_scope.
Local Open Scope res_scope.

Section Tables.
  (** The order in which pandas puts the rows of a merged table, and the names it gives to
      the columns: those that both tables have get suffixes. *)
  Variable arrange : list (Q * list (option Q)) -> list (Q * list (option Q)).
  Variable suffixed : list (string * string) -> list (string * string) -> list (string * string).

  (** dor:37-43 [pd.merge]. *)
  Definition merge_tables (a b : frame) : frame :=
    mkFrame (suffixed (f_columns a) (f_columns b)) (f_rows (outer_merge arrange a b)).

  (** dor:34-46: the loop over the results, of which only the data sets are modelled. *)
  Fixpoint merge_results (df : option frame) (results : list dataset) : res (option frame) :=
    match results with
    | [] => Ok df
    | d :: results' =>
        res_df <- as_dataframe arrange d ;;
        merge_results (Some (match df with Some a => merge_tables a res_df | None => res_df end)) results'
    end.

  (** dor:32-49 [as_dataframe]. *)
  Definition results_table (results : list dataset) : res frame :=
    df <- merge_results None results ;;
    match df with Some f => Ok f | None => Raise ValueError end.
End Tables.

(** A table whose columns are 0, 1, ..., with the labels of its rows. *)
Record numbered := mkNumbered { nb_width : nat; nb_rows : list (nat * list (option Q)) }.

(** dor:25 [pd.DataFrame(error.T.full())]: one row for every column of the errors. *)
Definition node_table (error : mat) : numbered :=
  mkNumbered (mrows error) (combine (seq 0 (length (mcols error))) (map (map Some) (mcols error))).

(** A row with [n] columns more. *)
Definition widened (n : nat) (r : nat * list (option Q)) : nat * list (option Q) := (fst r, snd r ++ repeat None n).
(** dor:27 [pd.concat([a, b], axis="rows")]: missing columns are filled, labels are kept. *)
Definition concat_rows (a b : numbered) : numbered :=
  mkNumbered (Nat.max (nb_width a) (nb_width b))
             (map (widened (nb_width b - nb_width a)) (nb_rows a) ++
              map (widened (nb_width a - nb_width b)) (nb_rows b)).

(** dor:22-30 [__post_init__]: the errors of the nodes, in the order of the dictionary. *)
Definition constraint_violations (errors : list mat) : res numbered :=
  match fold_left (fun df error => Some (match df with
                                         | Some a => concat_rows a (node_table error)
                                         | None => node_table error
                                         end)) errors None with
  | Some df => Ok df
  | None => Raise ValueError
  end.

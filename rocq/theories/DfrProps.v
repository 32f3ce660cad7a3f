(** Property C102: the tables of the result of a distributed method.  [arrange] is the order
    that pandas gives to merged rows, [suffixed] the names it gives to merged columns. *)
From Coq Require Import String QArith Permutation.
From Verif Require Import Base DataModel FraModel FraSpec DfrModel DfrSpec DfrProofs.
Local Open Scope list_scope.
Local Open Scope nat_scope.

(** The table of all results has a row for a time exactly if the table of some result has
    one.  Its rows of a time show every choice of rows that the tables have for it, and
    missing values for those that have none.  Its columns are those of the tables, one after
    the other, if no two of them share a column. *)
Theorem C102_results : forall arrange suffixed, (forall l, Permutation (arrange l) l) -> suffixes suffixed ->
  forall ds f, results_table arrange suffixed ds = Ok f ->
    exists fs, Forall2 (fun d g => as_dataframe arrange d = Ok g) ds fs /\
      (forall t cells, has_row f t cells <->
         (exists g c, In g fs /\ has_row g t c) /\
         exists cs, Forall2 (fun g c => row_shows g t c) fs cs /\ cells = concat cs) /\
      (apart fs -> f_columns f = flat_map f_columns fs).
Proof. exact w_results. Qed.
Print Assumptions C102_results.

(** There is such a table exactly if there are results and all of them have tables. *)
Theorem C102_results_when : forall arrange suffixed ds,
    results_table arrange suffixed [] = Raise ValueError /\
    ((exists f, results_table arrange suffixed ds = Ok f) <->
     ds <> [] /\ Forall (fun d => exists f, as_dataframe arrange d = Ok f) ds).
Proof. exact w_results_when. Qed.
Print Assumptions C102_results_when.

(** The table of the violations has the rows of all nodes, in order: one row for every
    column of the errors of a node, numbered from 0 and filled up to the widest one. *)
Theorem C102_violations : forall errors,
  (errors = [] -> constraint_violations errors = Raise ValueError) /\
  (errors <> [] -> exists T, constraint_violations errors = Ok T /\
     Forall (fun m => mrows m <= nb_width T) errors /\
     (exists m, In m errors /\ mrows m = nb_width T) /\
     nb_rows T = flat_map (fun m => map (fun jc => (fst jc, map Some (snd jc) ++ repeat None (nb_width T - mrows m)))
                                        (combine (seq 0 (length (mcols m))) (mcols m))) errors /\
     (Forall rectangular errors -> Forall (fun r => length (snd r) = nb_width T) (nb_rows T))).
Proof. exact w_violations. Qed.
Print Assumptions C102_violations.

(** Refutation of "the label of a row tells which one it is": the rows of every node are
    numbered from 0, and nothing tells the nodes apart. *)
Theorem C102_labels_refuted : exists errors T i j r1 r2, constraint_violations errors = Ok T /\ i <> j /\
  nth_error (nb_rows T) i = Some r1 /\ nth_error (nb_rows T) j = Some r2 /\ fst r1 = fst r2 /\ snd r1 <> snd r2.
Proof. exact w_labels. Qed.
Print Assumptions C102_labels_refuted.

Example two_tanks :
  suffixes (@app (string * string)) /\
  results_table (fun l => l) (@app (string * string)) [tank; second_tank] =
    Ok (mkFrame [("x", "level"); ("x", "flow"); ("u", "pump"); ("x", "depth")]%string
          [(0%Q, [Some 5%Q; Some 1%Q; None; None]); (1%Q, [Some 6%Q; Some 2%Q; Some 8%Q; Some 2%Q]);
           (3%Q, [Some 7%Q; Some 3%Q; None; None]); (2%Q, [None; None; Some 9%Q; None]);
           (4%Q, [None; None; None; Some 3%Q])]) /\
  constraint_violations two_errors =
    Ok (mkNumbered 2 [(0, [Some 5%Q; None]); (1, [Some 6%Q; None]); (0, [Some 7%Q; Some 8%Q])]) /\
  Forall rectangular two_errors.
Proof.
  split; [intros a b; split; [apply app_length|reflexivity]|]. split; [reflexivity|]. split; [reflexivity|].
  repeat constructor.
Qed.

(** Property C101: the table of a data set.  [arrange] is the order that pandas gives to the
    rows of a merged table. *)
From Coq Require Import String QArith SetoidList Permutation.
From Verif Require Import Base DataModel FraModel FraSpec FraProofs.
Local Open Scope list_scope.
Local Open Scope nat_scope.

(** The columns are the names of the entries, in order.  There is a row for a time exactly
    if some entry has values for it.  The rows of a time show every choice of values that the
    entries have for it, and missing values for the entries that have none. *)
Theorem C101_rows : forall arrange, (forall l, Permutation (arrange l) l) -> forall d f, as_dataframe arrange d = Ok f ->
    f_columns f = flat_map (fun ke => map (fun name => (fst ke, name)) (e_names (snd ke))) (named d) /\
    forall t cells, has_row f t cells <->
      (exists ke v, In ke (named d) /\ recorded (snd ke) t v) /\
      exists cs, Forall2 (fun ke c => shows (snd ke) t c) (named d) cs /\ cells = concat cs.
Proof. exact w_rows. Qed.
Print Assumptions C101_rows.

(** If no entry has two values for one time, every time has one row. *)
Theorem C101_once : forall arrange, (forall l, Permutation (arrange l) l) -> forall d f, as_dataframe arrange d = Ok f ->
    Forall (fun ke => NoDupA Qeq (e_time (snd ke))) (named d) -> NoDupA Qeq (map fst (f_rows f)).
Proof. exact w_once. Qed.
Print Assumptions C101_once.

(** There is a table exactly if there is an entry with names, and all of these are filled. *)
Theorem C101_when : forall arrange d,
    (named d = [] -> as_dataframe arrange d = Raise AttributeError) /\
    (named d <> [] -> Forall (fun ke => filled (snd ke)) (named d) -> exists f, as_dataframe arrange d = Ok f) /\
    (~ Forall (fun ke => filled (snd ke)) (named d) -> as_dataframe arrange d = Raise ValueError).
Proof. exact w_when. Qed.
Print Assumptions C101_when.

(** The tank, with the rows in the order in which they are found. *)
Example tank_table :
  as_dataframe (fun l => l) tank =
    Ok (mkFrame [("x", "level"); ("x", "flow"); ("u", "pump")]%string
          [(0%Q, [Some 5%Q; Some 1%Q; None]); (1%Q, [Some 6%Q; Some 2%Q; Some 8%Q]);
           (3%Q, [Some 7%Q; Some 3%Q; None]); (2%Q, [None; None; Some 9%Q])]) /\
  Forall (fun ke => filled (snd ke)) (named tank) /\
  Forall (fun ke => NoDupA Qeq (e_time (snd ke))) (named tank).
Proof.
  split; [reflexivity|]. split; [repeat constructor|].
  repeat constructor; intros H; repeat (inversion H as [? ? E|? ? E]; subst; [discriminate E|]; clear H; rename E into H); inversion H.
Qed.

(** Refutation of "the table has no more rows than there are values": two values for the
    same time in two entries make four rows. *)
Theorem C101_repeated_refuted : exists d, named d <> [] /\ Forall (fun ke => filled (snd ke)) (named d) /\
  forall arrange, (forall l, Permutation (arrange l) l) -> exists f, as_dataframe arrange d = Ok f /\
    forall ke, In ke (named d) -> length (e_time (snd ke)) = 2 /\ length (f_rows f) = 4.
Proof. exact w_repeated. Qed.
Print Assumptions C101_repeated_refuted.

(** Refutation of "an entry without data is left out of the table": there is no table if an
    entry with names has no data. *)
Theorem C101_unfilled_refuted : forall arrange d k e, In (k, e) d -> e_names e <> [] -> e_values e = null ->
  as_dataframe arrange d = Raise ValueError.
Proof. exact w_unfilled. Qed.
Print Assumptions C101_unfilled_refuted.

Example tank_unfilled : exists d, create_entry (fun k _ => k) "z" (Some 1) None "plot" tank = (d, Ok tt) /\
  as_dataframe (fun l => l) d = Raise ValueError.
Proof. eexists. split; reflexivity. Qed.

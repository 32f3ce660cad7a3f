(** C95: the lines of a plot of a data set. *)
From Coq Require Import String.
From Verif Require Import Base ExprModel DataModel PloModel PloSpec PloTopProofs.
Local Open Scope list_scope.
Local Open Scope nat_scope.

Theorem C95_lines : forall re exact d figures requests rest out,
  labelled d -> plot re exact d figures requests = (rest, Ok out) ->
  length out = length (plots requests) /\
  forall j request f ls, nth_error (plots requests) j = Some request -> nth_error out j = Some (f, ls) ->
    f = Numbered j /\
    (forall l, In l ls -> exists k r, shows d k r l) /\
    forall k r, (exists l, In l ls /\ shows d k r l) <-> (exists a e, In (k, a) request /\ look k d = Some e /\ asks_for re exact e a r).
Proof. exact w_lines. Qed.
Print Assumptions C95_lines.

Theorem C95_accepted_iff : forall re exact d figures requests,
  labelled d -> requests <> [] ->
  (exact = false -> forall request k a e, In request requests -> In (k, a) request -> look k d = Some e -> defined re e a) ->
  ((exists rest out, plot re exact d figures requests = (rest, Ok out)) <->
   Forall (drawable re exact d) requests /\ forall fs, figures = Some fs -> length requests <= S (length fs)).
Proof. exact w_accepted. Qed.
Print Assumptions C95_accepted_iff.

(** The names that begin with "h_", and the last row. *)
Example C95_drawn : labelled levels_data /\
  match plot begins false levels_data None chosen_rows with
  | (rest, Ok out) => map (fun p => (fst p, map (fun l => (l_label l, l_row l, l_values l)) (snd p))) out
        = [(Numbered 0, [("flow", 2, [3; 6]%Q); ("h_1", 0, [1; 4]%Q); ("h_2", 1, [2; 5]%Q)]%string); (Numbered 1, [("pump", 0, [7]%Q)]%string)] /\
      rest = [[("x"%string, Chosen [Index (-1)])]; [("u"%string, Everything)]]
  | _ => False
  end.
Proof. exact w_levels. Qed.
Example C95_patterns : forall request k a e, In request chosen_rows -> In (k, a) request -> look k levels_data = Some e -> defined begins e a.
Proof. exact levels_defined. Qed.

(** The lists of the caller lose the patterns that match. *)
Theorem C95_left : forall re d figures requests rest out,
  labelled d -> plot re false d figures requests = (rest, Ok out) -> Forall2 (Forall2 (left_asked re d)) requests rest.
Proof. exact w_left. Qed.
Print Assumptions C95_left.

(** So the same call once more draws less. *)
Theorem C95_twice_refuted : exists re d requests rest out,
  labelled d /\ plot re false d None requests = (rest, Ok out) /\
  exists rest' out', plot re false d None rest = (rest', Ok out') /\
    map (fun p => length (snd p)) out = [2] /\ map (fun p => length (snd p)) out' = [0].
Proof. exact w_twice. Qed.
Print Assumptions C95_twice_refuted.

(** With exact names they keep everything, also when the call fails. *)
Theorem C95_exact : forall re d figures requests, fst (plot re true d figures requests) = requests.
Proof. exact w_exact. Qed.
Print Assumptions C95_exact.

(** The given figures are not used. *)
Theorem C95_figures : forall re exact d fs requests rest out,
  plot re exact d (Some fs) requests = (rest, Ok out) ->
  plot re exact d None requests = (rest, Ok out) /\ forall f ls n, In (f, ls) out -> f <> Given n.
Proof. exact w_figures. Qed.
Print Assumptions C95_figures.

Theorem C95_given_refuted : exists re d fs requests rest out,
  labelled d /\ length requests = length fs /\
  plot re false d (Some fs) requests = (rest, Ok out) /\ map fst out = [Numbered 0; Numbered 1].
Proof. exact w_given. Qed.
Print Assumptions C95_given_refuted.

(** And with some figures given fewer plots can be drawn than without. *)
Theorem C95_too_few_refuted : exists re d fs requests,
  labelled d /\ fs <> [] /\ Forall (drawable re false d) requests /\ snd (plot re false d (Some fs) requests) = Raise IndexError.
Proof. exact w_too_few. Qed.
Print Assumptions C95_too_few_refuted.

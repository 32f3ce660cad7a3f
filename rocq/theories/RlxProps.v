(** C97: plots of the connections of a network.  C98: the data set of a result. *)
From Coq Require Import String.
From Verif Require Import Base ExprModel SysModel SimModel DataModel ResModel NetModel PloModel PloSpec RlxModel RlxSpec RlxProofs.
Local Open Scope list_scope.
Local Open Scope nat_scope.

(** For every connection the outputs of the first node and the inputs of the second one that it
    connects are drawn and nothing else, all in the figure with number zero. *)
Theorem C97_lines : forall re results y_of u_of,
  (forall a d, data_of results a d -> labelled d) ->
  forall g out, plot_all_relaxations re results y_of u_of g = Ok out ->
  length out = length (edges g) /\
  forall j a b ys us drawn, nth_error (edges g) j = Some (a, b, (ys, us)) -> nth_error out j = Some drawn ->
    exists d d', data_of results a d /\ data_of results b d' /\
      (forall l, In l (every_line drawn) -> exists r, (row_of (y_of a) ys r /\ shows d "y" r l) \/ (row_of (u_of b) us r /\ shows d' "u" r l)) /\
      (forall r, row_of (y_of a) ys r -> exists l, In l (every_line drawn) /\ shows d "y" r l) /\
      (forall r, row_of (u_of b) us r -> exists l, In l (every_line drawn) /\ shows d' "u" r l) /\
      (forall f ls, In (f, ls) drawn -> f = Numbered 0).
Proof. exact c97_lines. Qed.
Print Assumptions C97_lines.

Theorem C97_accepted_iff : forall re results y_of u_of,
  (forall a d, data_of results a d -> labelled d) ->
  forall g, (exists out, plot_all_relaxations re results y_of u_of g = Ok out) <->
    (forall a b ys us, In (a, b, (ys, us)) (edges g) -> exists d d', data_of results a d /\ data_of results b d' /\
      has_rows d "y" (y_of a) ys /\ has_rows d' "u" (u_of b) us).
Proof. exact c97_accepted. Qed.
Print Assumptions C97_accepted_iff.

Example C97_pipes : (forall a d, data_of pipe_results a d -> labelled d) /\
  match plot_all_relaxations begins pipe_results pipe_y pipe_u pipes with
  | Ok out => map (flat_map (fun p => map (fun l => (l_label l, l_values l)) (snd p))) out =
      [[("out_1"%string, [5; 5]%Q); ("in"%string, [6%Q])]; [("out_2"%string, [1; 2]%Q); ("in"%string, [7%Q])]]
  | Raise _ => False
  end.
Proof. split; [exact pipes_good|reflexivity]. Qed.

(** The second connection is not drawn in the figure that is opened for it. *)
Theorem C97_own_figure_refuted : exists re results y_of u_of g out drawn,
  (forall a d, data_of results a d -> labelled d) /\
  plot_all_relaxations re results y_of u_of g = Ok out /\ nth_error out 1 = Some drawn /\
  every_line drawn <> [] /\ forall f ls, In (f, ls) drawn -> f <> Numbered 1 /\ f <> Given 1.
Proof. exact c97_own. Qed.
Print Assumptions C97_own_figure_refuted.

(** The data set is made when it is first asked for with success.  From then on it changes by the
    calls made on it and by nothing else. *)
Theorem C98_kept : forall default r pre o post d,
  (forall i p, nth_error pre i = Some p -> reads p -> exists x, to_dataset default (assigned (firstn i pre) r) = Raise x) ->
  reads o -> to_dataset default (assigned pre r) = Ok d ->
  snd (get_dataset default (run_caught (kept_step default) (pre ++ o :: post) (mkKept r None))) = Ok (run_caught (data_step default) (calls (o :: post)) d).
Proof. exact c98_kept. Qed.
Print Assumptions C98_kept.

(** As long as it could not be made, it is that of the result as it is now. *)
Theorem C98_failed : forall default r ops,
  (forall i p, nth_error ops i = Some p -> reads p -> exists x, to_dataset default (assigned (firstn i ops) r) = Raise x) ->
  snd (get_dataset default (run_caught (kept_step default) ops (mkKept r None))) = to_dataset default (assigned ops r).
Proof. exact c98_failed. Qed.
Print Assumptions C98_failed.

(** Asking for the data set, and calls on it, leave the result alone. *)
Theorem C98_result : forall default r ops, k_result (run_caught (kept_step default) ops (mkKept r None)) = assigned ops r.
Proof. exact c98_result. Qed.
Print Assumptions C98_result.

(** A first try that fails, one that succeeds, and an insertion. *)
Example C98_changed :
  (forall i p, nth_error tries i = Some p -> reads p -> exists x, to_dataset plain_name (assigned (firstn i tries) (a_run 1 1%Q)) = Raise x) /\
  match get_dataset plain_name (run_caught (kept_step plain_name)
          (tries ++ Call (DInsert "x" (TimeNum 2%Q) (mkMat 1 [[3%Q]])) :: [Assign (fun _ => a_run 1 9%Q)]) (mkKept (a_run 1 1%Q) None)) with
  | (_, Ok d) => option_map (fun e => (e_time e, mcols (e_values e))) (look "x" d) = Some ([0; 1; 2]%Q, [[5]; [2]; [3]]%Q)
  | _ => False
  end.
Proof.
  split; [|reflexivity]. intros [|[|[|i]]] p E R; try (injection E as <-); [destruct R| |destruct R|destruct i; discriminate].
  eexists. reflexivity.
Qed.

(** So it is not always the data set of the result. *)
Theorem C98_current_refuted : exists default r f d d',
  snd (get_dataset default (run_caught (kept_step default) [Ask; Assign f] (mkKept r None))) = Ok d /\
  to_dataset default (assigned [Ask; Assign f] r) = Ok d' /\ d <> d'.
Proof. exact c98_current. Qed.
Print Assumptions C98_current_refuted.

(** C96: copies of data sets. *)
From Coq Require Import String.
From Verif Require Import Base ExprModel DataModel DshModel DshSpec DshProofs.
Local Open Scope list_scope.
Local Open Scope nat_scope.

Theorem C96_alone : forall default ops h d,
  (holds (run_caught (set_step default) ops empty) h d <-> nth_error (run_caught (alone default) ops []) h = Some d) /\
  length (m_sets (run_caught (set_step default) ops empty)) = length (run_caught (alone default) ops []) /\
  outcomes (set_step default) ops empty = outcomes (alone default) ops [].
Proof. exact c96_alone. Qed.
Print Assumptions C96_alone.

Theorem C96_copy : forall default before after h d,
  let m := run_caught (set_step default) before empty in
  let c := length (m_sets m) in
  holds m h d ->
  let m' := run_caught (set_step default) (before ++ CopySet h :: after) empty in
  (Forall (fun op => changes op <> Some c) after -> holds m' c d) /\
  (Forall (fun op => changes op <> Some h) after -> holds m' h d).
Proof. exact c96_copy. Qed.
Print Assumptions C96_copy.

(** Both data sets go on after the copy; the last call extends the copy by itself. *)
Example C96_two_logs :
  outcomes (set_step plain) two_logs empty = repeat (Ok tt) 9 /\
  map (fun d => map (fun ke => (fst ke, e_time (snd ke), mcols (e_values (snd ke)))) d) (run_caught (alone plain) two_logs [])
    = [[("x"%string, [0; 1; 1; 2]%Q, [[7]; [5]; [5]; [6]]%Q)]; [("x"%string, [0; 0; 1; 1]%Q, [[7]; [7]; [5]; [5]]%Q)]] /\
  length (m_entries (run_caught (set_step plain) two_logs empty)) = 2.
Proof. vm_compute. repeat split. Qed.
(** A copy that is left alone while the original grows. *)
Example C96_kept :
  let before := firstn 3 two_logs in
  let after := [Insert 0 "x" (TimeNum 2%Q) (mkMat 1 [[6%Q]]); Sort 0 None] in
  holds (run_caught (set_step plain) before empty) 0 [("x"%string, mkEntry ["x"%string] (Some 1) [1%Q] (mkMat 1 [[5%Q]]) "plot")] /\
  Forall (fun op => changes op <> Some 1) after.
Proof.
  split.
  - eexists. split; [reflexivity|]. repeat constructor.
  - repeat constructor; discriminate.
Qed.

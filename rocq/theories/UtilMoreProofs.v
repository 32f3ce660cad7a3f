(** Proofs about timers that are used again. *)
From Verif Require Import Base UtilModel.
Local Open Scope list_scope.

Lemma entering_keeps : forall starts tm, timer_elapsed (fold_left (fun t now => timer_enter now t) starts tm) = timer_elapsed tm.
Proof. induction starts as [|now starts IH]; intros tm; [reflexivity|]. cbn [fold_left]. rewrite IH. reflexivity. Qed.
Lemma timer_running : forall t0 t1 starts tm,
    timer_elapsed (fold_left (fun t now => timer_enter now t) starts (fst (timer_exit t1 (timer_enter t0 tm)))) = Ok (t1 - t0)%Z.
Proof. intros. rewrite entering_keeps. reflexivity. Qed.

(** Proofs about [unvec] with sizes that do not match. *)
From Coq Require Import Lia.
From Verif Require Import Base LagModel.
Local Open Scope list_scope.

Lemma w_C08_unvec_refused :
  forall (A : Type) (v : list A) degree,
    (degree = 0%nat -> unvec v degree = Raise ZeroDivisionErr) /\
    ((0 < degree)%nat -> (forall size, length v <> (size * degree)%nat) -> unvec v degree = Raise CasadiError).
Proof.
  intros A v degree. unfold unvec. split; [intros ->; reflexivity|]. intros Hd H.
  destruct (Nat.eqb_spec degree 0); [lia|].
  destruct (Nat.eqb_spec (length v / degree * degree) (length v)) as [E|]; [|reflexivity].
  exfalso. exact (H _ (eq_sym E)).
Qed.

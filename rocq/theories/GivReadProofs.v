(** What is asked for when the controls of a solution are read. *)
From Coq Require Import String Lia.
From Verif Require Import Base UtilModel ExprModel NlpModel SysModel SysSpec SimModel OcpModel LagModel DiscModel
  ColSpec ShoModel ShoSpec GivModel GivSpec.
Local Open Scope list_scope.
Local Open Scope nat_scope.

Lemma reading_all {A B : Type} : forall (f : A -> res B) g l, (forall a, In a l -> f a = Ok (g a)) ->
  res_map f l = Ok (map g l).
Proof.
  intros f g l. induction l as [|a l IH]; intros H; simpl; [reflexivity|].
  rewrite H by (left; reflexivity). rewrite IH; [reflexivity|]. intros b Hb. apply H. right. exact Hb.
Qed.
Lemma at_seq {A : Type} : forall (f : nat -> A) n i e, i < n -> at_index (map f (seq 0 n)) i e = Ok (f i).
Proof.
  intros f n i e Hi. unfold at_index.
  assert (E : nth_error (seq 0 n) i = Some i).
  { rewrite (nth_error_nth' (seq 0 n) 0) by (rewrite seq_length; exact Hi). rewrite seq_nth by exact Hi. reflexivity. }
  rewrite (map_nth_error f _ _ E). reflexivity.
Qed.

Lemma w_C86_reading : forall k points bps, breakpoints k = Ok bps ->
    control_reading bps (interpolation_times (step_size k) bps (control_taus points k)) (k_elements k) =
    Ok (map (fun el => (el, mkDemand (boundary k el) (boundary k (S el)) None None
                              (Some (map (fun tau => boundary k el + step_size k * tau)%Q (control_taus points k))) []))
            (seq 0 (k_elements k))).
Proof.
  intros k points bps H.
  assert (E : bps = map (boundary k) (seq 0 (k_elements k + 1))).
  { unfold breakpoints, delta_t in H. destruct (k_elements k =? 0); [discriminate|]. injection H as <-. reflexivity. }
  subst bps. unfold control_reading. apply reading_all. intros el Hel. apply in_seq in Hel. cbn beta.
  unfold interpolation_times.
  assert (R : removelast (map (boundary k) (seq 0 (k_elements k + 1))) = map (boundary k) (seq 0 (k_elements k))).
  { rewrite Nat.add_1_r, seq_S, map_app. cbn [map]. apply removelast_last. }
  rewrite R, map_map, !at_seq by lia. rewrite (Nat.add_1_r el). reflexivity.
Qed.

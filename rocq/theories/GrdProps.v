(** C88: degree and number of elements of augmented Lagrangian methods. *)
From Verif Require Import Base GrdModel GrdSpec GrdProofs.
Local Open Scope list_scope.
Local Open Scope nat_scope.

(** A new method: its options and its solver have the entries of the dictionary and else the
    options that were given; its multipliers have the grid of the options as they were.
    Another method changes only in its options, and only if they are the same object.  The
    dictionary that was given now has both entries; the others are as before. *)
Theorem C88_constructed :
  forall w g o kw d og, dict_given w g = Some d -> options_given w o = Some og -> ~ conflict d kw ->
  exists w', step (AMethod g o kw None None) w = (w', Ok tt) /\
    length (w_methods w') = S (length (w_methods w)) /\
    seen_at w' (length (w_methods w)) = Some (mkSeen (chosen d og) og (chosen d og)) /\
    (forall j s, seen_at w j = Some s ->
       seen_at w' j = Some (mkSeen (if shares w o j then chosen d og else sn_options s) (sn_multipliers s) (sn_solver s))) /\
    (forall k e, nth_error (w_dicts w) k = Some e ->
       nth_error (w_dicts w') k = Some (match g with
                                        | DNamed k' => if k =? k' then both (chosen d og) else e
                                        | DNew _ => e
                                        end)).
Proof. exact constructed. Qed.
Print Assumptions C88_constructed.
(** Two methods with dictionaries and options of their own, one of degree 5, one of 7. *)
Definition asks (d e : option nat) : entries := mkEntries d e.
Definition plain : entries := asks None None.
Definition made (g : given_dict) (o : given_options) : call := AMethod g o plain None None.
Example C88_constructed_ex :
  let w := after [made (DNew plain) (ONew (asks (Some 5) None)); made (DNew (asks (Some 7) None)) (ONew plain)] nothing in
  seen_at w 0 = Some (mkSeen (mkGrid 5 20) (mkGrid 5 20) (mkGrid 5 20)) /\
  seen_at w 1 = Some (mkSeen (mkGrid 7 20) (mkGrid 3 20) (mkGrid 7 20)).
Proof. vm_compute. split; reflexivity. Qed.

(** The multipliers have the grid of the solver exactly if the dictionary asks for nothing
    or for the same as the options. *)
Theorem C88_multipliers_fit :
  forall d og, chosen d og = og <->
  (e_degree d = None \/ e_degree d = Some (g_degree og)) /\ (e_elements d = None \/ e_elements d = Some (g_elements og)).
Proof. exact fits. Qed.
Print Assumptions C88_multipliers_fit.

(** Values that differ between dictionary and keyword are refused, without a new method. *)
Theorem C88_refused :
  forall w g o kw late d og, dict_given w g = Some d -> options_given w o = Some og -> conflict d kw ->
  exists w', step (AMethod g o kw None late) w = (w', Raise ValueError) /\ w_methods w' = w_methods w.
Proof. exact refused. Qed.
Print Assumptions C88_refused.
(** It can have changed the options of others: the degree is set before the numbers of
    elements are compared. *)
Theorem C88_refused_unchanged_refuted :
  exists w o kw k, snd (step (AMethod (DNamed k) o kw None None) w) = Raise ValueError /\
    seen_at w 0 = Some (mkSeen (mkGrid 3 20) (mkGrid 3 20) (mkGrid 3 20)) /\
    seen_at (fst (step (AMethod (DNamed k) o kw None None) w)) 0 = Some (mkSeen (mkGrid 4 20) (mkGrid 3 20) (mkGrid 3 20)).
Proof.
  exists (after [made (DNew plain) (ONew plain); ADict (asks (Some 4) (Some 9))] nothing), (OMethod 0), (asks None (Some 8)), 1.
  vm_compute. repeat split; reflexivity.
Qed.
Print Assumptions C88_refused_unchanged_refuted.

(** A method made with options of its own keeps its options and its solver, whatever happens
    later to the dictionary it was given and to other methods. *)
Theorem C88_kept :
  forall g e kw w d cs, reached w -> dict_given w g = Some d -> ~ conflict d kw ->
  let o := mkGrid (either (e_degree e) 3) (either (e_elements e) 20) in
  let i := length (w_methods w) in
  Forall (leaves_alone i (length (w_options w))) cs ->
  exists w', step (AMethod g (ONew e) kw None None) w = (w', Ok tt) /\
    seen_at (after cs w') i = Some (mkSeen (chosen d o) o (chosen d o)).
Proof. exact kept. Qed.
Print Assumptions C88_kept.
Example C88_kept_ex :
  let cs := [AWriteDict 0 Degree (Some 9); made (DNamed 0) (ONew plain); AWriteMethod 1 Degree 2; made (DNamed 0) (OMethod 1);
             ANodes 0 (mkGrid 6 6) [(None, None); (None, Some CasadiError)]] in
  Forall (leaves_alone 0 0) cs /\
  let w := after (ADict plain :: made (DNamed 0) (ONew plain) :: cs) nothing in
  seen_at w 0 = Some (mkSeen (mkGrid 3 20) (mkGrid 3 20) (mkGrid 3 20)) /\
  seen_at w 1 = Some (mkSeen (mkGrid 9 20) (mkGrid 3 20) (mkGrid 9 20)).
Proof. split; [repeat constructor; discriminate|]. vm_compute. split; reflexivity. Qed.

(** A dictionary that was used once decides for all later methods that are given it, whatever
    their options are, until the user writes to it. *)
Theorem C88_dictionary_decides :
  forall w k o kw d og cs o' kw' og', nth_error (w_dicts w) k = Some d -> options_given w o = Some og ->
  ~ conflict d kw -> Forall (keeps_dict k) cs ->
  exists w1, step (AMethod (DNamed k) o kw None None) w = (w1, Ok tt) /\
    let w2 := after cs w1 in
    options_given w2 o' = Some og' -> ~ conflict (both (chosen d og)) kw' ->
    exists w3, step (AMethod (DNamed k) o' kw' None None) w2 = (w3, Ok tt) /\
      seen_at w3 (length (w_methods w2)) = Some (mkSeen (chosen d og) og' (chosen d og)).
Proof. exact same_dictionary. Qed.
Print Assumptions C88_dictionary_decides.
(** So the degree that the user asks for is not the one of the method, although the dictionary
    that the user wrote asks for nothing. *)
Theorem C88_options_refuted :
  exists cs, cs = [ADict plain; made (DNamed 0) (ONew plain); made (DNamed 0) (ONew (asks (Some 5) (Some 8)))] /\
  seen_at (after cs nothing) 1 = Some (mkSeen (mkGrid 3 20) (mkGrid 5 8) (mkGrid 3 20)).
Proof. eexists. split; [reflexivity|]. vm_compute. reflexivity. Qed.
Print Assumptions C88_options_refuted.
(** Options that two methods share: making the second takes the first away from its solver. *)
Theorem C88_shared_options_refuted :
  exists cs, cs = [AOptions plain; made (DNew plain) (ONamed 0); made (DNew (asks (Some 5) None)) (ONamed 0)] /\
  seen_at (after cs nothing) 0 = Some (mkSeen (mkGrid 5 20) (mkGrid 3 20) (mkGrid 3 20)).
Proof. eexists. split; [reflexivity|]. vm_compute. reflexivity. Qed.
Print Assumptions C88_shared_options_refuted.

(** The methods of the nodes of a network all have the same grid: that of the distributed
    method, unless its dictionary asks for another.  Other methods do not change. *)
Theorem C88_nodes :
  forall dk own n w d, nth_error (w_dicts w) dk = Some d ->
  exists w', step (ANodes dk own (repeat (None, None) n)) w = (w', Ok tt) /\
    length (w_methods w') = length (w_methods w) + n /\
    (forall j s, seen_at w j = Some s -> seen_at w' j = Some s) /\
    (forall j, length (w_methods w) <= j < length (w_methods w) + n ->
       seen_at w' j = Some (mkSeen (chosen d own) own (chosen d own))).
Proof. exact nodes_made. Qed.
Print Assumptions C88_nodes.
(** Two networks solved with one dictionary: the nodes of the second have the grid of the
    first, their multipliers the one that was asked for. *)
Theorem C88_second_network_refuted :
  exists cs, cs = [ADict plain; ANodes 0 (mkGrid 3 20) (repeat (None, None) 2); ANodes 0 (mkGrid 2 10) (repeat (None, None) 2)] /\
  seen_at (after cs nothing) 3 = Some (mkSeen (mkGrid 3 20) (mkGrid 2 10) (mkGrid 3 20)).
Proof. eexists. split; [reflexivity|]. vm_compute. reflexivity. Qed.
Print Assumptions C88_second_network_refuted.

(** C99: the names of the variables that a user creates. *)
From Coq Require Import String.
From Verif Require Import Base UtilModel NamModel NamSpec NamProofs.
Local Open Scope list_scope.
Local Open Scope nat_scope.

(** The names of each vector are those of the calls made for it, in order.  No symbol is made
    twice. *)
Theorem C99_names : forall w calls, untouched w -> addressed w calls ->
  length (ws_models (run_caught call_create calls w)) = length (ws_models w) /\
  (forall i m', nth_error (ws_models (run_caught call_create calls w)) i = Some m' ->
    exists m, nth_error (ws_models w) i = Some m /\ nm_name m' = nm_name m /\ nm_prefix m' = nm_prefix m /\
      forall v, named_by w i v calls (vector_names v m')) /\
  NoDup (map s_id (all_variables (run_caught call_create calls w))).
Proof. exact c99_names. Qed.
Print Assumptions C99_names.

(** A call returns exactly what it appends to its vector.  Other vectors and models stay. *)
Theorem C99_returned : forall w c m, nth_error (ws_models w) (c_model c) = Some m ->
  exists w' m' new, call_create c w = (w', Ok new) /\ nth_error (ws_models w') (c_model c) = Some m' /\
    vector_of (c_vector c) m' = vector_of (c_vector c) m ++ new /\
    (forall v, v <> c_vector c -> vector_of v m' = vector_of v m) /\
    (forall i, i <> c_model c -> nth_error (ws_models w') i = nth_error (ws_models w) i).
Proof. exact c99_returned. Qed.
Print Assumptions C99_returned.

(** Each state has a symbol of its own for its initial condition. *)
Theorem C99_initial : forall w calls, untouched w -> addressed w calls ->
  NoDup (map s_id (all_symbols (run_caught call_create calls w))) /\
  forall m, In m (ws_models (run_caught call_create calls w)) -> length (nm_x_0 m) = length (nm_x m).
Proof. exact c99_initial. Qed.
Print Assumptions C99_initial.

(** If the full names of the calls differ and none of them ends like the name of an entry, the
    exact lookup of the name of a variable finds that variable and no other, over all models. *)
Theorem C99_apart : forall re w calls, untouched w -> addressed w calls ->
  (forall i j c c' f, nth_error calls i = Some c -> nth_error calls j = Some c' -> full_name w c f -> full_name w c' f -> i = j) ->
  (forall c f, In c calls -> full_name w c f -> ~ numbered f) ->
  forall v, In v (all_variables (run_caught call_create calls w)) ->
  find_variables_in_vector_by_name s_name re [s_name v] (all_variables (run_caught call_create calls w)) true = [v].
Proof. exact c99_apart. Qed.
Print Assumptions C99_apart.

(** Two models that put their names in front of their variables, with different names that have
    no underscore, have no name of a variable in common. *)
Theorem C99_models : forall w calls, untouched w -> addressed w calls ->
  forall i j m n, nth_error (ws_models (run_caught call_create calls w)) i = Some m ->
  nth_error (ws_models (run_caught call_create calls w)) j = Some n ->
  nm_prefix m = true -> nm_prefix n = true -> nm_name m <> nm_name n -> plain (nm_name m) -> plain (nm_name n) ->
  forall x y, In x (variables m) -> In y (variables n) -> s_name x <> s_name y.
Proof. exact c99_models. Qed.
Print Assumptions C99_models.

Example C99_tanks : untouched tanks /\ addressed tanks tank_calls /\
  (forall i j c c' f, nth_error tank_calls i = Some c -> nth_error tank_calls j = Some c' -> full_name tanks c f -> full_name tanks c' f -> i = j) /\
  (forall c f, In c tank_calls -> full_name tanks c f -> ~ numbered f) /\
  plain "left" /\ plain "right" /\
  map (fun m => (vector_names StateV m, vector_names AlgebraicV m, vector_names ControlV m, map s_name (nm_x_0 m)))
    (ws_models (run_caught call_create tank_calls tanks)) =
  [(["left_h"; "left_c"], [], ["left_u"], ["left_h_0_sym"; "left_c_0_sym"]);
   (["right_h_0"; "right_h_1"], [], [], ["right_h_0_sym_0"; "right_h_0_sym_1"]);
   ([], ["flow_0"; "flow_1"; "flow_2"], [], [])]%string.
Proof.
  split; [exact tanks_untouched|]. split; [exact tanks_addressed|]. split; [exact (proj1 tanks_apart)|].
  split; [exact (proj2 tanks_apart)|]. split; [exact (proj1 letters_plain)|]. split; [exact (proj2 letters_plain)|reflexivity].
Qed.

(** Different names given by the user do not make the names of the variables differ: a scalar
    x_1 is called like an entry of a vector x. *)
Theorem C99_different_names_refuted : exists w calls c c' x y, untouched w /\ addressed w calls /\
  calls = [c; c'] /\ c_name c <> c_name c' /\
  In x (all_variables (run_caught call_create calls w)) /\ In y (all_variables (run_caught call_create calls w)) /\
  x <> y /\ s_name x = s_name y.
Proof.
  exists (mkWs 0 [new_model "m" false]), [mkCreation 0 StateV "x" 2; mkCreation 0 StateV "x_1" 1],
    (mkCreation 0 StateV "x" 2), (mkCreation 0 StateV "x_1" 1), (mkSymbol 1 "x_1"), (mkSymbol 4 "x_1").
  split; [intros m [E|[]]; subst m; reflexivity|]. split; [intros c [E|[E|[]]]; subst c; cbn; auto|].
  split; [reflexivity|]. split; [intros E; discriminate E|]. split; [cbn; tauto|]. split; [cbn; tauto|].
  split; [intros E; discriminate E|reflexivity].
Qed.
Print Assumptions C99_different_names_refuted.

(** The name of the model in front is not enough if names of models have underscores. *)
Theorem C99_prefix_refuted : exists w calls m n x y, untouched w /\ addressed w calls /\
  ws_models (run_caught call_create calls w) = [m; n] /\ nm_prefix m = true /\ nm_prefix n = true /\ nm_name m <> nm_name n /\
  In x (variables m) /\ In y (variables n) /\ s_name x = s_name y.
Proof.
  exists (mkWs 0 [new_model "tank" true; new_model "tank_in" true]), [mkCreation 0 ControlV "in_flow" 1; mkCreation 1 ControlV "flow" 1].
  eexists _, _, (mkSymbol 0 "tank_in_flow"), (mkSymbol 1 "tank_in_flow").
  split; [intros m [E|[E|[]]]; subst m; reflexivity|]. split; [intros c [E|[E|[]]]; subst c; cbn; auto|].
  split; [reflexivity|]. split; [reflexivity|]. split; [reflexivity|]. split; [intros E; discriminate E|].
  split; [cbn; tauto|]. split; [cbn; tauto|reflexivity].
Qed.
Print Assumptions C99_prefix_refuted.

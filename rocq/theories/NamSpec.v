(** Specification vocabulary for C99: the names of created variables. *)
From Coq Require Import String DecimalString.
From Verif Require Import Base NamModel.
Local Open Scope list_scope.
Local Open Scope nat_scope.

(** A number as text. *)
Definition decimal (n : nat) : string := NilEmpty.string_of_uint (Nat.to_uint n).

(** The text has no underscore. *)
Definition plain (s : string) : Prop := forall a b, s <> (a ++ "_" ++ b)%string.

(** The text ends with an underscore and a number. *)
Definition numbered (s : string) : Prop := exists b n, s = (b ++ "_" ++ decimal n)%string.

(** [names] are the names of the entries of a variable that is called [full] and has [size]
    entries. *)
Definition entry_names (full : string) (size : nat) (names : list string) : Prop :=
  length names = size /\
  forall j s, nth_error names j = Some s ->
    (size = 1 -> s = full) /\ (size <> 1 -> s = (full ++ "_" ++ decimal j)%string).

(** The name of the variable of a call: with the name of the model in front if the model says so. *)
Inductive full_name (w : workspace) (c : creation) : string -> Prop :=
| with_prefix : forall m, nth_error (ws_models w) (c_model c) = Some m -> nm_prefix m = true ->
    full_name w c (nm_name m ++ "_" ++ c_name c)%string
| without_prefix : forall m, nth_error (ws_models w) (c_model c) = Some m -> nm_prefix m = false ->
    full_name w c (c_name c).

(** Nothing has been created. *)
Definition untouched (w : workspace) : Prop :=
  forall m, In m (ws_models w) -> m = new_model (nm_name m) (nm_prefix m).

(** Each call is made on a model of the user. *)
Definition addressed (w : workspace) (calls : list creation) : Prop :=
  forall c, In c calls -> c_model c < length (ws_models w).

(** The calls for one vector of one model. *)
Inductive named_by (w : workspace) (i : nat) (v : vector) : list creation -> list string -> Prop :=
| named_nil : named_by w i v [] []
| named_other : forall c cs l, (c_model c <> i \/ c_vector c <> v) -> named_by w i v cs l -> named_by w i v (c :: cs) l
| named_this : forall c cs full ns l, c_model c = i -> c_vector c = v -> full_name w c full ->
    entry_names full (c_size c) ns -> named_by w i v cs l -> named_by w i v (c :: cs) (ns ++ l).

(** All variables of a model, and of all models. *)
Definition variables (m : names_model) : list symbol := nm_x m ++ nm_y m ++ nm_u m ++ nm_p m ++ nm_theta m.
Definition all_variables (w : workspace) : list symbol := flat_map variables (ws_models w).

(** All symbols, those of the initial conditions included. *)
Definition all_symbols (w : workspace) : list symbol := flat_map (fun m => variables m ++ nm_x_0 m) (ws_models w).

(** The models of the examples: two tanks with their name in front of the variables, and a plant. *)
Definition tanks : workspace := mkWs 7 [new_model "left" true; new_model "right" true; new_model "plant" false].
Definition tank_calls : list creation :=
  [mkCreation 0 StateV "h" 1; mkCreation 1 StateV "h" 2; mkCreation 0 ControlV "u" 1;
   mkCreation 2 AlgebraicV "flow" 3; mkCreation 0 StateV "c" 1].

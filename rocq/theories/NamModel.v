(** Model of the names of the variables that a user creates:
    yaocptool/modelling/mixins/*.py and SystemModel.name_variable. *)
From Coq Require Import String DecimalString.
From Verif Require Import Base.
Local Open Scope list_scope.
Local Open Scope nat_scope.

(** A scalar casadi symbol.  Symbols are told apart by identity (here a number), not by name. *)
Record symbol := mkSymbol { s_id : nat; s_name : string }.

(** yaocptool/modelling/system_model.py:42-70 [SystemModel.__init__]: the name, the choice of
    prefix and the vectors of variables.  Simplified: the equations are left out. *)
Record names_model := mkNM { nm_name : string; nm_prefix : bool; nm_x : list symbol; nm_x_0 : list symbol;
  nm_y : list symbol; nm_u : list symbol; nm_p : list symbol; nm_theta : list symbol }.

Definition new_model (name : string) (prefix : bool) : names_model := mkNM name prefix [] [] [] [] [] [].

(** yaocptool/modelling/system_model.py:129-132 [name_variable]. *)
Definition name_variable (m : names_model) (name : string) : string :=
  if nm_prefix m then (nm_name m ++ "_" ++ name)%string else name.

(** casadi's [SX.sym(name, size)] followed by [vec]: one symbol with the name itself if there is
    one entry, else entries named name_0, name_1 and so on, column by column.  [size] is the
    number of entries.  Simplified: casadi reads a name that begins with a bracket as a list of
    names; such names are not considered. *)
Definition sx_sym (next : nat) (name : string) (size : nat) : list symbol :=
  if size =? 1 then [mkSymbol next name]
  else map (fun i => mkSymbol (next + i) (name ++ "_" ++ NilEmpty.string_of_uint (Nat.to_uint i))%string) (seq 0 size).

Inductive vector := StateV | AlgebraicV | ControlV | ParameterV | ThetaV.

(** The model together with the number of the next symbol that casadi makes. *)
Definition include (v : vector) (new new_0 : list symbol) (m : names_model) : names_model :=
  match v with
  (* yaocptool/modelling/mixins/continuous_states_mixin.py:56-71 [include_state]; the new symbols
     are in no model, so the ValueError of lines 66-68 does not happen *)
  | StateV => mkNM (nm_name m) (nm_prefix m) (nm_x m ++ new) (nm_x_0 m ++ new_0) (nm_y m) (nm_u m) (nm_p m) (nm_theta m)
  (* yaocptool/modelling/mixins/algebraic_mixin.py:76-79 [include_algebraic] *)
  | AlgebraicV => mkNM (nm_name m) (nm_prefix m) (nm_x m) (nm_x_0 m) (nm_y m ++ new) (nm_u m) (nm_p m) (nm_theta m)
  (* yaocptool/modelling/mixins/control_mixin.py:53-56 [include_control] *)
  | ControlV => mkNM (nm_name m) (nm_prefix m) (nm_x m) (nm_x_0 m) (nm_y m) (nm_u m ++ new) (nm_p m) (nm_theta m)
  (* yaocptool/modelling/mixins/parameter_mixin.py:65-66 [include_parameter] *)
  | ParameterV => mkNM (nm_name m) (nm_prefix m) (nm_x m) (nm_x_0 m) (nm_y m) (nm_u m) (nm_p m ++ new) (nm_theta m)
  (* yaocptool/modelling/mixins/parameter_mixin.py:68-69 [include_theta] *)
  | ThetaV => mkNM (nm_name m) (nm_prefix m) (nm_x m) (nm_x_0 m) (nm_y m) (nm_u m) (nm_p m) (nm_theta m ++ new)
  end.

(** yaocptool/modelling/mixins/continuous_states_mixin.py:36-54 [create_state],
    algebraic_mixin.py:24-40 [create_algebraic_variable], control_mixin.py:34-51 [create_control],
    parameter_mixin.py:31-63 [create_parameter], [create_theta]. *)
Definition create (v : vector) (name : string) (size : nat) : cmd (nat * names_model) (list symbol) :=
  fun s =>
    let (next, m) := s in
    let name := name_variable m name in
    let new := sx_sym next name size in
    match v with
    | StateV =>
        let new_0 := sx_sym (next + size) (name ++ "_0_sym")%string size in
        ((next + size + size, include StateV new new_0 m), Ok new)
    | _ => ((next + size, include v new [] m), Ok new)
    end.

(** The models of a user, by number, and the next symbol.  A call names the model it is made on. *)
Record workspace := mkWs { ws_next : nat; ws_models : list names_model }.
Record creation := mkCreation { c_model : nat; c_vector : vector; c_name : string; c_size : nat }.

Definition call_create (c : creation) : cmd workspace (list symbol) :=
  fun w =>
    match nth_error (ws_models w) (c_model c) with
    | None => (w, Raise IndexError)
    | Some m =>
        let (s, r) := create (c_vector c) (c_name c) (c_size c) (ws_next w, m) in
        (mkWs (fst s) (firstn (c_model c) (ws_models w) ++ [snd s] ++ skipn (S (c_model c)) (ws_models w)), r)
    end.

(** [x_names], [y_names], [u_names], [p_names], [theta_names] of the mixins (for the parameters
    yaocptool/modelling/mixins/parameter_mixin.py:23-29). *)
Definition vector_of (v : vector) (m : names_model) : list symbol :=
  match v with StateV => nm_x m | AlgebraicV => nm_y m | ControlV => nm_u m | ParameterV => nm_p m | ThetaV => nm_theta m end.
Definition vector_names (v : vector) (m : names_model) : list string := map s_name (vector_of v m).

(** Constructors of the estimators (estimation/unscented_kalman_filter.py "ukf",
    estimation/extended_kalman_filter.py "ekf", estimation/pce_kalman_filter.py "pkf"). *)
From Coq Require Import String.
From Verif Require Import Base ExprModel SysModel DataModel StoModel.
Local Open Scope list_scope.
Local Open Scope res_scope.

(** What the constructors read of their arguments: the sizes of the model, the names of
    its attributes, and the keyword arguments. *)
Record est_args := mkEstArgs
  { ea_n_x : nat; ea_n_y : nat; ea_attributes : list string; ea_kwargs : list string;
    ea_samples : option nat; ea_order : option nat }.
Definition given (a : est_args) (k : string) : bool := existsb (String.eqb k) (ea_kwargs a).

(** system_model.py: the attributes of a [SystemModel], of its instances and class, that
    the constructors read ("x_sym" is not one). *)
Definition system_model_attributes : list string := ["name"; "n_x"; "n_y"; "t_sym"; "tau_sym"]%string.
(** [self.model.k] *)
Definition attribute (a : est_args) (k : string) : res unit :=
  if existsb (String.eqb k) (ea_attributes a) then Ok tt else Raise AttributeError.

(** estimator_abstract.py:2-7: [setattr] for every keyword argument; [properties] have no
    setter. *)
Definition set_kwargs (a : est_args) (properties : list string) : res unit :=
  if existsb (given a) properties then Raise AttributeError else Ok tt.

(** ukf:63-64, ekf:71-72, pkf:73-74: [self.dataset.data["x"]["size"] = n]; an [Entry] does
    not support item assignment. *)
Definition set_entry_size (d : dataset) (k : string) : res dataset :=
  match look k d with None => Raise KeyError | Some _ => Raise TypeError end.

(** ukf:9-100 [__init__]; the data set of a filter that was constructed. *)
Definition new_unscented (a : est_args) : res dataset :=
  _ <- set_kwargs a ["n_meas"%string] ;;
  set_entry_size [] "x".

Section Oracles.
(** ekf:54: writing [p_k] into the augmented covariance. *)
Variable set_block : est_args -> res unit.
(** ekf:57: [vertcat(x_mean, y_guess)]. *)
Variable stack : est_args -> res unit.
(** pkf:90-100 [_fix_types]: the number of elements of [x_mean], which may be missing. *)
Variable fix_types : est_args -> res nat.
(** pce.py:500-560 [get_ls_factor]. *)
Variable ls_factor : nat -> nat -> nat -> res unit.

(** ekf:11-98 [__init__]. *)
Definition new_extended (a : est_args) : res dataset :=
  _ <- set_kwargs a ["n_meas"%string] ;;
  _ <- set_block a ;;
  _ <- (if Nat.ltb 0 (ea_n_y a) then if given a "y_guess" then stack a else Raise ValueError else Ok tt) ;;
  (* ekf:238-242 _create_augmented_model_and_p_update *)
  _ <- attribute a "x_sym" ;;
  set_entry_size [] "x".

(** pkf:13-83 [__init__]. *)
Definition new_chaos (a : est_args) : res dataset :=
  _ <- set_kwargs a ["n_pol_parameters"%string] ;;
  n <- fix_types a ;;
  let order := match ea_order a with Some o => o | None => 4 end in
  let samples := match ea_samples a with Some s => s | None => n_pol_parameters n order end in
  _ <- (if Nat.ltb samples (n_pol_parameters n order) then Raise ValueError else Ok tt) ;;
  _ <- ls_factor n samples order ;;
  set_entry_size [] "x".
End Oracles.

(** Properties of the constructors of the estimators. *)
From Coq Require Import String.
From Verif Require Import Base ExprModel SysModel DataModel StoModel EstModel EstProofs.
Local Open Scope list_scope.

(** ** C70 *)

(** No Kalman filter of the package can be constructed: the unscented filter never, the
    extended filter for no [SystemModel], the polynomial chaos filter never, whatever the
    keyword arguments and whatever the operations on matrices give. *)
Theorem C70_constructors_refuted :
  forall set_block stack fix_types ls_factor a,
    (exists e, new_unscented a = Raise e) /\
    (ea_attributes a = system_model_attributes -> exists e, new_extended set_block stack a = Raise e) /\
    (exists e, new_chaos fix_types ls_factor a = Raise e).
Proof.
  exact (fun sb st ft lf a => conj (ex_intro _ _ (unscented_raises a))
           (conj (extended_raises sb st a) (chaos_raises ft lf a))).
Qed.
Print Assumptions C70_constructors_refuted.

(** The exceptions with proper arguments: the unscented filter asks an empty dictionary for
    an entry; the extended filter asks the model for an attribute it has not, or complains
    about a missing guess of the algebraic variables. *)
Theorem C70_exceptions :
  forall set_block stack a,
    given a "n_meas" = false ->
    new_unscented a = Raise KeyError /\
    (ea_attributes a = system_model_attributes -> set_block a = Ok tt -> stack a = Ok tt ->
     new_extended set_block stack a =
     Raise (if Nat.ltb 0 (ea_n_y a) then if given a "y_guess" then AttributeError else ValueError
            else AttributeError)).
Proof.
  exact (fun sb st a G => conj
    (eq_trans (unscented_raises a) (f_equal (fun b : bool => Raise (if b then AttributeError else KeyError)) G))
    (fun H B S => extended_reason sb st a H G B S)).
Qed.
Print Assumptions C70_exceptions.

(** The polynomial chaos filter, once its matrices are accepted: fewer samples than there are
    polynomials up to the order (4 if none is given) are refused; with enough samples, or with
    the default number of them, it asks an empty dictionary for an entry. *)
Theorem C70_samples :
  forall fix_types ls_factor a n,
    ~ In "n_pol_parameters"%string (ea_kwargs a) -> fix_types a = Ok n ->
    let order := match ea_order a with Some o => o | None => 4 end in
    let polynomials := fact (n + order) / (fact n * fact order) in
    let samples := match ea_samples a with Some k => k | None => polynomials end in
    (samples < polynomials -> new_chaos fix_types ls_factor a = Raise ValueError) /\
    (polynomials <= samples ->
     new_chaos fix_types ls_factor a =
     match ls_factor n samples order with Raise e => Raise e | Ok _ => Raise KeyError end).
Proof. exact chaos_reason. Qed.
Print Assumptions C70_samples.

(** One uncertain variable and order 4: five polynomials. *)
Example C70_samples_example :
  let a k := mkEstArgs 1 0 system_model_attributes ["x_mean"; "n_samples"]%string (Some k) None in
  new_chaos (fun _ => Ok 1) (fun _ _ _ => Ok tt) (a 4) = Raise ValueError /\
  new_chaos (fun _ => Ok 1) (fun _ _ _ => Ok tt) (a 5) = Raise KeyError.
Proof. split; reflexivity. Qed.

(** The filter of the example for predictive control: a model with one algebraic variable. *)
Example C70_example :
  let a := mkEstArgs 2 1 system_model_attributes ["x_mean"; "p_k"; "y_guess"; "t_s"]%string None None in
  new_extended (fun _ => Ok tt) (fun _ => Ok tt) a = Raise AttributeError /\ new_unscented a = Raise KeyError.
Proof. split; reflexivity. Qed.

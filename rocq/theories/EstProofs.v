(** Proofs about the constructors of the estimators. *)
From Coq Require Import String.
From Verif Require Import Base ExprModel SysModel DataModel StoModel EstModel.
Local Open Scope list_scope.

Lemma no_x (a : est_args) : ea_attributes a = system_model_attributes -> attribute a "x_sym" = Raise AttributeError.
Proof. intros H. unfold attribute. rewrite H. reflexivity. Qed.
Lemma unscented_raises a : new_unscented a = Raise (if given a "n_meas" then AttributeError else KeyError).
Proof. unfold new_unscented, set_kwargs. simpl. destruct (given a "n_meas"); reflexivity. Qed.
Lemma extended_raises set_block stack a :
  ea_attributes a = system_model_attributes -> exists e, new_extended set_block stack a = Raise e.
Proof.
  intros H. unfold new_extended. rewrite (no_x _ H). unfold bind.
  destruct (set_kwargs a _); [|eexists; reflexivity].
  destruct (set_block a); [|eexists; reflexivity].
  destruct (if Nat.ltb 0 (ea_n_y a) then _ else _); eexists; reflexivity.
Qed.
Lemma extended_reason set_block stack a :
  ea_attributes a = system_model_attributes -> given a "n_meas" = false -> set_block a = Ok tt -> stack a = Ok tt ->
  new_extended set_block stack a =
  Raise (if Nat.ltb 0 (ea_n_y a) then if given a "y_guess" then AttributeError else ValueError else AttributeError).
Proof.
  intros H G B S. unfold new_extended, set_kwargs. rewrite (no_x _ H). simpl existsb. rewrite G, B.
  cbn [orb bind]. rewrite S. destruct (Nat.ltb 0 (ea_n_y a)), (given a "y_guess"); reflexivity.
Qed.
Lemma chaos_raises fix_types ls_factor a : exists e, new_chaos fix_types ls_factor a = Raise e.
Proof.
  unfold new_chaos, bind. destruct (set_kwargs a _); [|eexists; reflexivity].
  destruct (fix_types a) as [n|e]; [|eexists; reflexivity]. cbv zeta.
  destruct (Nat.ltb _ _); [eexists; reflexivity|].
  destruct (ls_factor n _ _); eexists; reflexivity.
Qed.
Lemma chaos_reason fix_types ls_factor a n :
  ~ In "n_pol_parameters"%string (ea_kwargs a) -> fix_types a = Ok n ->
  let order := match ea_order a with Some o => o | None => 4 end in
  let polynomials := fact (n + order) / (fact n * fact order) in
  let samples := match ea_samples a with Some k => k | None => polynomials end in
  (samples < polynomials -> new_chaos fix_types ls_factor a = Raise ValueError) /\
  (polynomials <= samples ->
   new_chaos fix_types ls_factor a =
   match ls_factor n samples order with Raise e => Raise e | Ok _ => Raise KeyError end).
Proof.
  intros G F order polynomials samples. unfold new_chaos, set_kwargs.
  assert (N : existsb (given a) ["n_pol_parameters"%string] = false).
  { cbn. rewrite Bool.orb_false_r. unfold given. destruct (existsb _ _) eqn:E; [|reflexivity].
    apply existsb_exists in E. destruct E as [k [I E]]. apply String.eqb_eq in E. subst k. contradiction. }
  rewrite N, F. cbn [bind]. cbv zeta. unfold n_pol_parameters.
  fold order. fold polynomials. fold samples.
  split; intros H.
  - rewrite (proj2 (Nat.ltb_lt _ _) H). reflexivity.
  - rewrite (proj2 (Nat.ltb_ge _ _) H). cbn [bind]. destruct (ls_factor n samples order); reflexivity.
Qed.

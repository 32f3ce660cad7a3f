(** Vocabulary for the properties of intermediary nodes. *)
From Coq Require Import String Qabs.
From Verif Require Import Base UtilModel ExprModel AugModel ImnModel.
Local Open Scope list_scope.
Local Open Scope Q_scope.

(** What an intermediary node between two others minimises: [y] is the output of the
    first, [u] the input of the second, [v] the value the node passes on. *)
Definition node_lagrangian (mu y u nu1 nu2 v : Q) : Q :=
  nu1 * (v - y) + mu / 2 * ((v - y) * (v - y)) + nu2 * (u - v) + mu / 2 * ((u - v) * (u - v)).

Definition unique_minimiser (L : Q -> Q) (v : Q) : Prop :=
  forall w, L v <= L w /\ (L w <= L v -> w == v).

(** One number for each of [elements] elements and [degree] points. *)
Definition by_points (degree elements : nat) (v : nat -> nat -> Q) : list Q :=
  flat_map (fun el => map (v el) (seq 0 degree)) (seq 0 elements).

(** The dictionary holds, for every element, the values of the variables [vs] at the
    points, one variable after the other. *)
Definition holds (degree elements : nat) (vs : list (nat -> nat -> Q)) (th : theta Q) : Prop :=
  length th = elements /\
  forall el, (el < elements)%nat ->
    dget Nat.eqb el th = Some (flat_map (fun v => map (v el) (seq 0 degree)) vs).

(** [e] is the largest absolute value. *)
Definition largest (degree elements : nat) (v : nat -> nat -> Q) (e : Q) : Prop :=
  (forall el j, (el < elements)%nat -> (j < degree)%nat -> Qabs (v el j) <= e) /\
  exists el j, (el < elements)%nat /\ (j < degree)%nat /\ e == Qabs (v el j).

(** [new] is [old] with its first number replaced by [q]. *)
Definition head_replaced (q : Q) (old new : list Q) : Prop :=
  length new = length old /\
  (forall z, nth_error new 0 = Some z -> z = q) /\
  forall j, (0 < j)%nat -> nth_error new j = nth_error old j.

(** Example: two elements of two points. *)
Definition canal_options : al_options :=
  mkAl 2%nat 2%nat 20%nat (1 # 1000000)%Q 1%Q 100%Q 4%Q false "bounded-increase" (1 # 2)%Q false false false false false.
Definition canal_theta : theta Q := [(0%nat, [3; 3; 7; 5]%Q); (1%nat, [1; 2; 1; 4]%Q)].
Definition canal_y (el j : nat) : Q := nth j (nth el [[3; 3]; [1; 2]]%Q []) 0%Q.
Definition canal_u (el j : nat) : Q := nth j (nth el [[7; 5]; [1; 4]]%Q []) 0%Q.
Definition canal_node : imn :=
  mkImn (mkAug [2; 2]%Q [(0%nat, [1; 1; 5; 1]%Q); (1%nat, [0; 0; 0; 0]%Q)] None false None [] []) None.
(** The same method with [only_update_if_improve], after an update that reported 4 and 1. *)
Definition canal_improving : al_options :=
  mkAl 2%nat 2%nat 20%nat (1 # 1000000)%Q 1%Q 100%Q 4%Q true "bounded-increase" (1 # 2)%Q false false false false false.
Definition canal_tilde : dict nat (list Q * list Q) :=
  [(0%nat, ([10; 11]%Q, [12; 13]%Q)); (1%nat, ([14; 15]%Q, [16; 17]%Q))].
Definition canal_later : imn :=
  mkImn (mkAug [2; 2]%Q [(0%nat, [1; 1; 5; 1]%Q); (1%nat, [0; 0; 0; 0]%Q)] None false (Some [4; 1]%Q) [] [])
        (Some canal_tilde).
(** The same, with each of the options that leave something out. *)
Definition canal_skipping : al_options :=
  mkAl 2%nat 2%nat 20%nat (1 # 1000000)%Q 1%Q 100%Q 4%Q false "bounded-increase" (1 # 2)%Q false false true false false.
Definition canal_keeping : al_options :=
  mkAl 2%nat 2%nat 20%nat (1 # 1000000)%Q 1%Q 100%Q 4%Q false "bounded-increase" (1 # 2)%Q false false false true false.
(** The options with another choice for [only_update_if_improve]. *)
Definition set_improve (b : bool) (o : al_options) : al_options :=
  mkAl (al_degree o) (al_elements o) (al_max_iter o) (al_tol o) (al_mu_0 o) (al_mu_max o) (al_beta o) b (al_rule o)
       (al_decrease o) (al_skip_parametrize o) (al_skip_initialize o) (al_skip_compute o) (al_skip_nu o) (al_skip_mu o).

(** Property theorems C07-C08: Lagrange basis and polynomial approximations. *)
From Coq Require Import Lqa.
From Verif Require Import Base BaseProofs ExprModel LagModel LagSpec LagProofs LagMoreProofs.

(** ** C07 *)

(** One basis polynomial per point: 1 at its own point, 0 at the others. *)
Theorem C07_one_at_own_zero_at_others :
  forall F env points degree z tau,
    let pts := interpolation_points points degree z in
    let basis := util_basis points tau degree z in
    distinct pts ->
    length basis = length pts /\
    forall j k, (j < length pts)%nat -> (k < length pts)%nat -> (env tau == nth k pts 0)%Q ->
      (eval F env (nth j basis (EConst 0)) == if Nat.eqb j k then 1 else 0)%Q.
Proof. exact w_C07_one_at_own_zero_at_others. Qed.
Print Assumptions C07_one_at_own_zero_at_others.

(** The combination of the basis with values passes through the values. *)
Theorem C07_interpolates :
  forall F env points degree z tau (values : list Q) k,
    let pts := interpolation_points points degree z in
    distinct pts -> length values = length pts -> (k < length pts)%nat ->
    (env tau == nth k pts 0)%Q ->
    (qsum (map (fun bv => eval F env (fst bv) * snd bv)
               (combine (util_basis points tau degree z) values)) == nth k values 0)%Q.
Proof. exact w_C07_interpolates. Qed.
Print Assumptions C07_interpolates.

(** The basis sums to 1 everywhere. *)
Theorem C07_sums_to_one :
  forall F env points degree z tau,
    let pts := interpolation_points points degree z in
    distinct pts -> pts <> [] ->
    (qsum (map (eval F env) (util_basis points tau degree z)) == 1)%Q.
Proof. exact w_C07_sums_to_one. Qed.
Print Assumptions C07_sums_to_one.

(** A polynomial with at most as many coefficients as points is reproduced at
    every tau. *)
Theorem C07_reproduces_polynomials :
  forall F env points degree z tau (c : list Q),
    let pts := interpolation_points points degree z in
    distinct pts -> (length c <= length pts)%nat ->
    (qsum (map (fun bv => eval F env (fst bv) * snd bv)
               (combine (util_basis points tau degree z) (map (poly c) pts))) == poly c (env tau))%Q.
Proof. exact w_C07_reproduces_polynomials. Qed.
Print Assumptions C07_reproduces_polynomials.

(** The basis of the solution methods is the same one. *)
Theorem C07_method_basis :
  forall points degree tau,
    length (points degree) = degree ->
    method_basis points tau degree 0 = util_basis points tau degree true /\
    method_basis points tau degree 1 = util_basis points tau degree false.
Proof. exact w_C07_method_basis. Qed.
Print Assumptions C07_method_basis.

(** Radau-like points 1/3, 1 with the point 0. *)
Example C07_ex :
  let points := fun d : nat => [1 # 3; 1]%Q in
  distinct (interpolation_points points 2 true) /\ interpolation_points points 2 true <> [] /\
  (length [3; -1; 2]%Q <= length (interpolation_points points 2 true))%nat /\
  (eval (fun _ q => q) (fun _ => 1 # 2) (nth 1 (util_basis points 7%nat 2 true) (EConst 0)) == 9 # 8)%Q.
Proof.
  split.
  - intros [|[|[|j]]] [|[|[|k]]] Hj Hk H; simpl in *; try reflexivity; try lia; try (exfalso; lra).
  - split; [discriminate|]. split; [simpl; lia|]. vm_compute. reflexivity.
Qed.

(** ** C08 *)

(** Number of parameters, all different. *)
Theorem C08_parameter_count :
  forall points tau size degree first z,
    let par := snd (create_polynomial_approximation points tau size degree first z) in
    length par = (size * if z && (1 <? degree) then degree + 1 else degree)%nat /\ NoDup par.
Proof. exact w_C08_parameter_count. Qed.
Print Assumptions C08_parameter_count.

(** At the j-th interpolation point component i is entry j*size+i of the
    parameter vector. *)
Theorem C08_parameter_layout :
  forall F env points tau size degree first z i j,
    let pts := interpolation_points points degree z in
    let (pol, par) := create_polynomial_approximation points tau size degree first z in
    (1 < degree)%nat -> length (points degree) = degree -> distinct pts ->
    (i < size)%nat -> (j < length pts)%nat -> (env tau == nth j pts 0)%Q ->
    length pol = size /\
    (eval F env (nth i pol (EConst 0)) == env (nth (j * size + i) par 0%nat))%Q.
Proof. exact w_C08_parameter_layout. Qed.
Print Assumptions C08_parameter_layout.

(** For degree 1 it is the parameter at every tau. *)
Theorem C08_degree_one_constant :
  forall F env points tau size first z i,
    let (pol, par) := create_polynomial_approximation points tau size 1 first z in
    length pol = size /\ length par = size /\
    ((i < size)%nat -> (eval F env (nth i pol (EConst 0)) == env (nth i par 0%nat))%Q).
Proof. exact w_C08_degree_one_constant. Qed.
Print Assumptions C08_degree_one_constant.

(** The approximation of the solution methods is the same one, for at least one
    component or without a point at zero. *)
Theorem C08_method_approximation :
  forall points tau size degree first z,
    length (points degree) = degree -> (0 < degree)%nat -> (0 < size)%nat \/ z = false \/ degree = 1%nat ->
    create_variable_polynomial_approximation points tau size degree first z =
    Ok (create_polynomial_approximation points tau size degree first z).
Proof. exact w_C08_method_approximation. Qed.
Print Assumptions C08_method_approximation.

(** Refuted: approximating an empty vector always works. *)
Theorem C08_empty_vector_refuted :
  forall points tau degree first, (1 < degree)%nat ->
    create_variable_polynomial_approximation points tau 0 degree first true = Raise CasadiError.
Proof. exact w_C08_empty_vector_refuted. Qed.
Print Assumptions C08_empty_vector_refuted.

(** [unvec] undoes the vectorisation: column j of the result holds the values at
    point j, and vectorising the result gives the vector back. *)
Theorem C08_unvec :
  forall (A : Type) (v : list A) degree size,
    (0 < degree)%nat -> length v = (size * degree)%nat ->
    exists m, unvec v degree = Ok m /\ length m = degree /\ concat m = v /\
      Forall (fun c => length c = size) m /\
      forall d i j, (i < size)%nat -> (j < degree)%nat -> nth i (nth j m []) d = nth (j * size + i) v d.
Proof. exact w_C08_unvec. Qed.
Print Assumptions C08_unvec.

(** Vectors that are not made of columns of one size are refused, and so is degree 0. *)
Theorem C08_unvec_refused :
  forall (A : Type) (v : list A) degree,
    (degree = 0%nat -> unvec v degree = Raise ZeroDivisionErr) /\
    ((0 < degree)%nat -> (forall size, length v <> (size * degree)%nat) -> unvec v degree = Raise CasadiError).
Proof. exact w_C08_unvec_refused. Qed.
Print Assumptions C08_unvec_refused.

Example C08_unvec_refused_ex :
  (forall size, length [1; 2; 3]%nat <> (size * 2)%nat) /\ unvec [1; 2; 3]%nat 2 = Raise CasadiError.
Proof. split; [cbn; intros size H; lia|reflexivity]. Qed.

Example C08_ex :
  let points := fun d : nat => [1 # 3; 1]%Q in
  length (points 2%nat) = 2%nat /\ distinct (interpolation_points points 2 true) /\
  snd (create_polynomial_approximation points 7 2 2 100 true) = [100; 103; 101; 104; 102; 105]%nat /\
  unvec [100; 103; 101; 104; 102; 105]%nat 3 = Ok [[100; 103]; [101; 104]; [102; 105]]%nat.
Proof.
  split; [reflexivity|]. split.
  - intros [|[|[|j]]] [|[|[|k]]] Hj Hk H; simpl in *; try reflexivity; try lia; try (exfalso; lra).
  - split; reflexivity.
Qed.

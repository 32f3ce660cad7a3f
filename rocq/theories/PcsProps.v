(** Properties of the statistics of polynomial chaos expansions. *)
From Coq Require Import QArith.
From Verif Require Import Base UtilModel StoModel StoSpec PcsModel PcsSpec PcsProofs.
Local Open Scope list_scope.
Local Open Scope nat_scope.

(** ** C89: the mean and the variance of a polynomial chaos expansion *)

(** Up to order nine the polynomials of the basis are orthogonal for every distribution with
    the moments of independent standard normal quantities up to twice the order.  If the
    sample is such a distribution, entry [i] of the expectations is the mean of the square of
    polynomial [i]. *)
Theorem C89_orthogonal :
  forall n order D xs i j f g, order <= 9 -> normal_to n (2 * order) D -> normal_to n (2 * order) (sample xs) ->
    i < n_pol_parameters n order -> j < n_pol_parameters n order ->
    expands n order (unit_at (n_pol_parameters n order) i) f -> expands n order (unit_at (n_pol_parameters n order) j) g ->
    exists ex v, expectation_vector n order xs = Ok ex /\ length ex = n_pol_parameters n order /\ nth_error ex i = Some v /\ (0 < v)%Q /\
      (mean_over D (fun x => f x * g x) == if i =? j then v else 0)%Q.
Proof. exact basis_orthogonal. Qed.
Print Assumptions C89_orthogonal.
(** Order two in one quantity: 1, x and x^2 - 1 over five weighted points, sampled by twelve. *)
Example C89_orthogonal_five : normal_to 1 4 five_points /\ normal_to 1 4 (sample twelve) /\
  expands 1 2 (unit_at 3 2) (fun x => nth 0 x 0 * nth 0 x 0 - 1)%Q /\ n_pol_parameters 1 2 = 3 /\
  bind (expectation_vector 1 2 twelve) (fun l => Ok (map Qred l)) = Ok [1; 1; 2]%Q.
Proof.
  split; [exact five_normal|]. split; [exact twelve_normal|]. split.
  - split; [reflexivity|]. intros [|v [|? ?]] psi L E; try discriminate. injection E as <-. cbn. ring.
  - split; vm_compute; reflexivity.
Qed.

(** The mean and the variance computed from the coefficients are those of the expansion,
    for every such distribution. *)
Theorem C89_statistics :
  forall n order D xs a f, order <= 9 -> normal_to n (2 * order) D -> normal_to n (2 * order) (sample xs) ->
    expands n order a f ->
    exists ex m v, expectation_vector n order xs = Ok ex /\ pce_mean a = Ok m /\ pce_variance a ex = Ok v /\
      (m == mean_over D f /\ v == covariance D f f)%Q.
Proof. exact statistics. Qed.
Print Assumptions C89_statistics.
(** 3 + 2 x + 4 (x^2 - 1): mean 3, variance 4 + 32. *)
Example C89_statistics_five : let f := fun x => (4 * nth 0 x 0 * nth 0 x 0 + 2 * nth 0 x 0 - 1)%Q in
  expands 1 2 [3; 2; 4]%Q f /\ pce_mean [3; 2; 4]%Q = Ok 3%Q /\
  bind (expectation_vector 1 2 twelve) (fun ex => bind (pce_variance [3; 2; 4]%Q ex) (fun v => Ok (Qred v))) = Ok 36%Q /\
  (Qred (mean_over five_points f) = 3 /\ Qred (covariance five_points f f) = 36)%Q.
Proof.
  cbv zeta. split.
  - split; [reflexivity|]. intros [|v [|? ?]] psi L E; try discriminate. injection E as <-. cbn. ring.
  - repeat split; vm_compute; reflexivity.
Qed.

(** The covariances of the filter are those of the expansions when these are of order one. *)
Theorem C89_filter_linear :
  forall n D a b f g, normal_to n 2 D -> expands n 1 a f -> expands n 1 b g ->
    exists c, filter_covariance (n_pol_parameters n 1) a b = Ok c /\ (c == covariance D f g)%Q.
Proof. exact filter_linear. Qed.
Print Assumptions C89_filter_linear.
Example C89_filter_linear_five : normal_to 1 4 five_points /\ n_pol_parameters 1 1 = 2 /\
  expands 1 1 [3; 2]%Q (fun x => 3 + 2 * nth 0 x 0)%Q /\ expands 1 1 [1; -5]%Q (fun x => 1 - 5 * nth 0 x 0)%Q /\
  filter_covariance 2 [3; 2]%Q [1; -5]%Q = Ok (-10)%Q.
Proof.
  split; [exact five_normal|]. split; [reflexivity|].
  split; [|split; [|vm_compute; reflexivity]]; (split; [reflexivity|]); intros [|v [|? ?]] psi L E; try discriminate; injection E as <-; cbn; ring.
Qed.

(** From order two on they are not: the filter gives x^2 - 1 the variance 1, and for every
    distribution with the normal moments up to degree four it is 2. *)
Theorem C89_filter_refuted :
  forall D f, normal_to 1 4 D -> expands 1 2 [0; 0; 1]%Q f ->
    filter_covariance (n_pol_parameters 1 2) [0; 0; 1]%Q [0; 0; 1]%Q = Ok 1%Q /\ (covariance D f f == 2)%Q.
Proof. exact filter_square. Qed.
Print Assumptions C89_filter_refuted.
Example C89_filter_five : normal_to 1 4 five_points /\ expands 1 2 [0; 0; 1]%Q (fun x => nth 0 x 0 * nth 0 x 0 - 1)%Q.
Proof.
  split; [exact five_normal|]. split; [reflexivity|].
  intros [|v [|? ?]] psi L E; try discriminate. injection E as <-. cbn. ring.
Qed.

(** With order ten the mean is not the first coefficient: the tenth polynomial has mean 150. *)
Theorem C89_order_ten_refuted :
  forall D f, normal_to 1 10 D -> expands 1 10 tenth f -> pce_mean tenth = Ok 0%Q /\ (mean_over D f == 150)%Q.
Proof. exact tenth_mean. Qed.
Print Assumptions C89_order_ten_refuted.
Example C89_order_ten_eleven : normal_to 1 10 eleven_points /\
  expands 1 10 tenth (fun x => let v := nth 0 x 0 in v ^ 10 - 45 * v ^ 8 + 640 * v ^ 6 - 3150 * v ^ 4 + 4725 * v ^ 2 - 945)%Q.
Proof.
  split.
  - destruct eleven_normal as [A B]. split; [exact A|]. intros e L S. apply B; [exact L | apply le_S; exact S].
  - exact tenth_expands.
Qed.

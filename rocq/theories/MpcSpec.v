(** Vocabulary for the properties of model predictive control. *)
From Coq Require Import String.
From Verif Require Import Base ExprModel SysModel SimModel DataModel OcpModel DiscModel DiscSpec ResModel PlantModel PlantSpec MpcModel.
Local Open Scope list_scope.

(** ** Warm start *)

(** [l'] is [l] moved one place forward, the last entry standing twice. *)
Definition moved_forward {A : Type} (l l' : list A) : Prop :=
  length l' = length l /\
  (forall i, (i + 1 < length l)%nat -> nth_error l' i = nth_error l (i + 1)) /\
  nth_error l' (length l - 1) = nth_error l (length l - 1).
(** The trajectory one element later; what does not belong to an element, and the
    element-wise parameters, stay. *)
Definition next_trajectory {A : Type} (r r' : traj A) : Prop :=
  moved_forward (r_x r) (r_x r') /\ moved_forward (r_y r) (r_y r') /\ moved_forward (r_u r) (r_u r') /\
  r_eta r' = r_eta r /\ r_p r' = r_p r /\ r_theta r' = r_theta r.

(** ** The loop *)

(** [n] successful rounds. *)
Fixpoint rounds {S : Type} (round : S -> S * res unit) (n : nat) (s s' : S) : Prop :=
  match n with
  | O => s' = s
  | Datatypes.S n' => exists s1, round s = (s1, Ok tt) /\ rounds round n' s1 s'
  end.
(** How often [run n] is meant to go round before it stops; it goes round at least once. *)
Definition planned (n : Z) : nat := Nat.max 1 (Z.to_nat n).
(** The outcome of at most [n] rounds: all succeeded, or the first that fails stops. *)
Definition outcome {S : Type} (round : S -> S * res unit) (n : nat) (s : S) (r : S * res unit) : Prop :=
  (exists s', r = (s', Ok tt) /\ rounds round n s s') \/
  (exists j s1 s2 e, (j < n)%nat /\ rounds round j s s1 /\ round s1 = (s2, Raise e) /\ r = (s2, Raise e)).

(** ** Parameters *)

(** Copying entries [i] of [source] to the places [j] of [p], one pair after the other. *)
Inductive copied (source : list Q) : list (nat * nat) -> list Q -> list Q -> Prop :=
| copied_none : forall p, copied source [] p p
| copied_next : forall i j l v p p' q,
    nth_error source i = Some v -> (j < length p)%nat ->
    length p' = length p -> nth_error p' j = Some v ->
    (forall k, k <> j -> nth_error p' k = nth_error p k) ->
    copied source l p' q -> copied source ((i, j) :: l) p q.
Definition parameters (c : mpc_config) (x cov : list Q) (p p' : option (list Q)) : Prop :=
  exists pm, (if g_mean c
              then g_mean_indices c = [] /\ pm = p \/
                   exists a b, p = Some a /\ pm = Some b /\ copied x (g_mean_indices c) a b
              else pm = p) /\
             (if g_covariance c
              then g_cov_indices c = [] /\ p' = pm \/
                   exists a b, pm = Some a /\ p' = Some b /\ copied cov (g_cov_indices c) a b
              else p' = pm).

(** ** One round *)

(** Measurement, estimate, optimisation with the warm start, control function from the
    first controls of the solution, sent to the plant. *)
Definition round_done {E : Type}
    (estimate : E -> Q -> list Q -> list Q -> E * res (list Q * list Q))
    (send : (Q -> res (list Q)) -> plant -> plant * res unit)
    (points : nat -> list Q) (F : nat -> Q -> Q)
    (solve : list Q -> option (list Q) -> option (list Q) -> list Q -> res solution)
    (c : mpc_config) (s s' : mpc E) : Prop :=
  exists x cov raw r g pars rest f,
    let now := a_t (b_plant s) in
    let u := a_u (b_plant s) in
    let x_0 := if g_include_cost c then x ++ [0%Q] else x in
    estimate (b_estimator s) now (a_measurement (b_plant s)) u = (b_estimator s', Ok (x, cov)) /\
    parameters c x_0 cov (b_p s) (b_p s') /\
    solve (match g_rearrange c with Some h => h x_0 | None => x_0 end) (b_guess s) (b_p s') u = Ok (Single raw r) /\
    step (g_scheme c) (g_method c) raw = Ok g /\ b_guess s' = Some g /\
    b_last s' = Some [r] /\ b_iteration s' = S (b_iteration s) /\
    w_u r = pars :: rest /\ pars <> [] /\
    make_control_function points F (f_model (g_plant c)) (k_degree (g_method c)) (concat pars)
      now (now + f_t_s (g_plant c))%Q = Ok f /\
    send f (b_plant s) = (b_plant s', Ok tt).

(** One round without optimisation: measurement and estimate, then the control function of
    the last solution, made anew for the present time, is sent to the plant. *)
Definition round_repeated {E : Type}
    (estimate : E -> Q -> list Q -> list Q -> E * res (list Q * list Q))
    (send : (Q -> res (list Q)) -> plant -> plant * res unit)
    (points : nat -> list Q) (F : nat -> Q -> Q) (c : mpc_config) (s s' : mpc E) : Prop :=
  exists x cov r others pars rest f,
    let now := a_t (b_plant s) in
    estimate (b_estimator s) now (a_measurement (b_plant s)) (a_u (b_plant s)) = (b_estimator s', Ok (x, cov)) /\
    b_p s' = b_p s /\ b_guess s' = b_guess s /\ b_iteration s' = S (b_iteration s) /\
    b_last s = Some (r :: others) /\ b_last s' = b_last s /\
    w_u r = pars :: rest /\ pars <> [] /\
    make_control_function points F (f_model (g_plant c)) (k_degree (g_method c)) (concat pars)
      now (now + f_t_s (g_plant c))%Q = Ok f /\
    send f (b_plant s) = (b_plant s', Ok tt).
(** [n] steps of a relation. *)
Fixpoint steps {S : Type} (R : S -> S -> Prop) (n : nat) (s s' : S) : Prop :=
  match n with O => s' = s | Datatypes.S n' => exists s1, R s s1 /\ steps R n' s1 s' end.

(** ** Control functions *)

(** [f] is the polynomial in time through the values [values], given for all inputs at the
    first point, then at the second point, ...: at the time of point [j] it returns the
    values of that point. *)
Definition through (points : list Q) (n_u : nat) (values : list Q) (a b : Q) (f : Q -> res (list Q)) : Prop :=
  forall j p, nth_error points j = Some p -> forall t, (t == a + p * (b - a))%Q ->
    exists w, f t = Ok w /\ length w = n_u /\
      forall i, (i < n_u)%nat -> (nth i w 0 == nth (j * n_u + i) values 0)%Q.
Definition constant (values : list Q) (f : Q -> res (list Q)) : Prop :=
  forall t, exists w, f t = Ok w /\ Forall2 Qeq w values.

(** The entries of a parameter vector that no pair names. *)
Definition untouched (c : mpc_config) (j : nat) : Prop :=
  (g_mean c = true -> ~ In j (map snd (g_mean_indices c))) /\
  (g_covariance c = true -> ~ In j (map snd (g_cov_indices c))).

(** ** Estimates *)

(** The first outputs are the states. *)
Definition observes_states (c : plant_config) : Prop :=
  let n_x := length (m_x (f_model c)) in
  (n_x <= length (f_c c))%nat /\
  forall i v, (i < n_x)%nat -> length v = (n_x + length (m_y (f_model c)))%nat ->
    (dot (nth i (f_c c) []) v == nth i v 0)%Q.

(** ** An example *)

(** The tank of [PlantSpec] with a controller that asks for the inflow [5 - x] all the
    time; its vector of decision variables has only ones.  One parameter is kept at the
    estimated level. *)
Definition tank_solution (size : nat) (u : Q) : solution :=
  Single (repeat 1%Q size)
    (mkResult 2 2 0 2 [0; 2]%Q [] [] [] [] [] [] [[[u]; [u]]; [[0%Q]; [0%Q]]] [] [] [] [] [] [] [] [] [] [] None).
Definition tank_solve (size : nat) (x : list Q) (g p : option (list Q)) (u : list Q) : res solution :=
  match x with [v] => Ok (tank_solution size (Qred (5 - v))) | _ => Raise CasadiError end.
Definition tank_estimate (e : unit) (t : Q) (y u : list Q) : unit * res (list Q * list Q) :=
  (e, Ok (ideal_estimate 1 y)).
Definition tank_mpc_config (k : method) : mpc_config :=
  mkMpcConfig (tank_config 2 [1 # 2; 1]%Q false) k Collocation false true [(0, 0)%nat] false [] None.

(** Specification vocabulary for successive passes of the augmented Lagrangian method. *)
From Coq Require Import String Qabs.
From Verif Require Import Base ExprModel NlpModel NlpSpec SysModel SysSpec OcpModel OcpSpec LagSpec
  DiscModel DiscSpec ColSpec DirSpec AugModel AugSpec AlsSpec MulSpec.
Local Open Scope list_scope.

(** One pass: the assignment [env] solves the transcribed relaxed problem [nl], with objective
    [e], for the values it gives to the parameters; [q'] and [c'] are its trajectory, and [q]
    and [c] the same trajectory as one of the problem [o] of the user. *)
Record pass (F : nat -> Q -> Q) (points : nat -> list Q) (o : ocp) (rq : request) (rx : relaxing) (k : method)
    (nl : nlp) (s : par_syms) (r : traj sym) (e : expr) (env : sym -> Q)
    (q' : trajectory) (c' : nat -> nat -> list Q) (q : trajectory) (c : nat -> nat -> list Q) : Prop := mkPass
  { pa_describes : describes k (points (k_degree k)) env s r q';
    pa_followed : followed (rx_problem rx) (k_elements k) (points (k_degree_control k)) q' c';
    pa_feasible : feasible F env nl;
    pa_least : forall env', map env' (all_mx s) = map env (all_mx s) -> feasible F env' nl -> (eval F env e <= eval F env' e)%Q;
    pa_same : same_trajectory o (freed o rq) (k_elements k) q c q' c';
    pa_shaped : shaped o (points (k_degree_control k)) (points (k_degree k)) q;
    pa_user : followed o (k_elements k) (points (k_degree_control k)) q c }.

Section Totals.
  (** A relaxed problem, the number of elements, and the rule with points [pts] and weights [b]. *)
  Variables (F : nat -> Q -> Q) (rx : relaxing) (elements : nat) (pts b : list Q).

  (** The integral of [f], a function of the element and of the relative time in it. *)
  Definition integrated (f : nat -> Q -> Q) : Q :=
    qsum (map (fun el => user_step (rx_problem rx) elements *
      qsum (map (fun tb => snd tb * f el (fst tb)) (combine pts b))) (seq 0 elements))%Q.

  (** What multipliers [nu] and weights [mu] add to the cost of a trajectory. *)
  Definition charged (nu mu : nat -> Q -> list Q) (q' : trajectory) (c' : nat -> nat -> list Q) : Q :=
    integrated (fun el tau => penalty_value (nu el tau) (mu el tau) (equations_at F rx elements q' c' el tau)).

  (** The weighted squares of the relaxed equations on a trajectory, and the weighted products
      of their values on two trajectories. *)
  Definition violation (mu : nat -> Q -> list Q) (q' : trajectory) (c' : nat -> nat -> list Q) : Q :=
    integrated (fun el tau => dot (mu el tau) (map (fun x => x * x) (equations_at F rx elements q' c' el tau)))%Q.
  Definition crossed (mu : nat -> Q -> list Q) (q1 : trajectory) (c1 : nat -> nat -> list Q)
      (q2 : trajectory) (c2 : nat -> nat -> list Q) : Q :=
    integrated (fun el tau => dot (mu el tau) (map (fun xy => fst xy * snd xy)
      (combine (equations_at F rx elements q1 c1 el tau) (equations_at F rx elements q2 c2 el tau))))%Q.
End Totals.

(** The values of [f2] at the points of all elements are those of [f1]. *)
Definition everywhere (elements : nat) (pts : list Q) (f1 f2 : nat -> Q -> list Q) : Prop :=
  forall el tau, (el < elements)%nat -> In tau pts -> Forall2 Qeq (f2 el tau) (f1 el tau).

(** What the examples share: the tank of C81. *)
Definition tank_setting (o : ocp) (rx : relaxing) (k : method) (nl : nlp) (s : par_syms) (r : traj sym) (e : expr) (b : list Q) : Prop :=
  drain_problem [] = Ok o /\ drain_relaxed [] whole = Ok rx /\ drain_method [] whole 2 = Ok k /\
  relaxation same_expr radau drain_options whole o 100 rx /\
  direct_setting radau (fun _ e => e) k 1000 nl s r (rx_problem rx) 60 61 200 /\ al_degree drain_options = k_degree k /\
  o_L o = [drain_cost] /\ o_V o = [EConst 0] /\ o_S o = [EConst 0] /\ o_positive o = false /\
  k_degree_control k = k_degree k /\ exact_rule (radau (k_degree k)) b /\ Forall (fun x => 0 <= x)%Q b /\ nf nl = [e].

(** Specification vocabulary for the multipliers an update gives, and what they say about
    the problem of the user. *)
From Coq Require Import String Qabs.
From Verif Require Import Base ExprModel NlpModel NlpSpec SysModel SysSpec OcpModel OcpSpec LagSpec
  DiscModel DiscSpec ColSpec DirSpec AugModel AugSpec AlsSpec IndSpec.
Local Open Scope list_scope.

Section Totals.
  (** A relaxed problem, the number of elements, and a trajectory of it. *)
  Variables (F : nat -> Q -> Q) (rx : relaxing) (elements : nat) (q' : trajectory) (c' : nat -> nat -> list Q).

  (** The values of the relaxed equations, their multipliers and their weights at relative
      time [tau] of an element. *)
  Definition equations_at (el : nat) (tau : Q) : list Q :=
    map (eval F (user_point (rx_problem rx) elements q' c' el tau)) (rx_alg rx ++ rx_eq rx).
  Definition multipliers_at (el : nat) (tau : Q) : list Q :=
    map (eval F (user_point (rx_problem rx) elements q' c' el tau)) (rx_nu_pol rx).
  Definition weights_at (el : nat) (tau : Q) : list Q :=
    map (user_point (rx_problem rx) elements q' c' el tau) (rx_mu_sym rx).

  (** The multipliers moved by weight times value. *)
  Definition raised (el : nat) (tau : Q) : list Q :=
    map (fun x => fst (fst x) + snd (fst x) * snd x)%Q
        (combine (combine (multipliers_at el tau) (weights_at el tau)) (equations_at el tau)).

  (** The relaxed equations multiplied by [nu] and integrated with the weights [b]. *)
  Definition multiplied_total (nu : nat -> Q -> list Q) (pts b : list Q) : Q :=
    qsum (map (fun el => user_step (rx_problem rx) elements *
      qsum (map (fun tb => snd tb * dot (nu el (fst tb)) (equations_at el (fst tb))) (combine pts b)))
      (seq 0 elements))%Q.
End Totals.

(** Half the weighted squares of the differences of the equations between two trajectories,
    integrated with the weights [b]. *)
Definition moved_total (F : nat -> Q -> Q) (rx : relaxing) (elements : nat) (q' : trajectory) (c' : nat -> nat -> list Q)
    (q2' : trajectory) (c2' : nat -> nat -> list Q) (pts b : list Q) : Q :=
  qsum (map (fun el => user_step (rx_problem rx) elements *
    qsum (map (fun tb => snd tb * ((1 # 2) * dot (weights_at rx elements q' c' el (fst tb))
      (map (fun xy => (fst xy - snd xy) * (fst xy - snd xy))
         (combine (equations_at F rx elements q2' c2' el (fst tb)) (equations_at F rx elements q' c' el (fst tb))))))
      (combine pts b)))
    (seq 0 elements))%Q.

(** Parameters, so weights and multipliers, are the same. *)
Definition same_parameters (elements : nat) (q q2 : trajectory) : Prop :=
  q_p q2 = q_p q /\ forall el, (el < elements)%nat -> q_theta q2 el = q_theta q el.

(** One trajectory for every number, of the problem [o] of the user and of the relaxed
    problem, with the same parameters; the relaxed equations are differentiable at 0. *)
Record variation (F : nat -> Q -> Q) (o : ocp) (rq : request) (rx : relaxing) (k : method) (pts : list Q)
    (q : Q -> trajectory) (c : Q -> nat -> nat -> list Q) (q' : Q -> trajectory) (c' : Q -> nat -> nat -> list Q) : Prop :=
  mkVariation
  { va_fits : forall t, fits k pts (q' t);
    va_same : forall t, same_trajectory o (freed o rq) (k_elements k) (q t) (c t) (q' t) (c' t);
    va_parameters : forall t, same_parameters (k_elements k) (q' 0%Q) (q' t);
    va_smooth : forall el tau g, (el < k_elements k)%nat -> In tau pts -> In g (rx_alg rx ++ rx_eq rx) ->
      exists d, has_derivative (fun t => eval F (user_point (rx_problem rx) (k_elements k) (q' t) (c' t) el tau) g) 0%Q d }.

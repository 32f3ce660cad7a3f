(** C100: the exponential of a matrix. *)
From Coq Require Import QArith.
From Verif Require Import Base StoModel StoSpec ExmModel ExmSpec ExmProofs.
Local Open Scope list_scope.
Local Open Scope nat_scope.

(** The matrix times a vector v is what the integrator gives at time one for x' = a x from v. *)
Theorem C100_action : forall integrate, linear_integrator integrate -> forall n a, square n a -> 0 < n ->
  exists e, expm integrate a = Ok e /\ square n e /\
    forall v, length v = n -> exists y, integrate (fun _ x => mat_vec a x) 1%Q v [] = Ok y /\ same_vector (mat_vec e v) y.
Proof. exact c100_action. Qed.
Print Assumptions C100_action.

(** A matrix that is not square, or is empty, is refused. *)
Theorem C100_refused : forall integrate a, columns a <> length a \/ a = [] -> expm integrate a = Raise CasadiError.
Proof. exact c100_refused. Qed.
Print Assumptions C100_refused.

Example C100_euler : linear_integrator euler /\ square 2 [[1; 2]; [3; 4]]%Q /\
  expm euler [[1; 2]; [3; 4]]%Q = Ok [[2; 2]; [3; 5]]%Q /\
  euler (fun _ x => mat_vec [[1; 2]; [3; 4]]%Q x) 1%Q [1; 10]%Q [] = Ok [22; 53]%Q /\
  mat_vec [[2; 2]; [3; 5]]%Q [1; 10]%Q = [22; 53]%Q /\
  expm euler [[1; 2]]%Q = Raise CasadiError.
Proof. split; [exact euler_linear|]. split; [split; [reflexivity|repeat constructor]|]. repeat split. Qed.

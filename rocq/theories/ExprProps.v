(** Property C06: conversions between time and normalised time. *)
From Verif Require Import Base ExprModel ExprProofs.

(** Value after rewriting tau into t, and t into tau, at every valuation. *)
Theorem C06_tau_to_time_value :
  forall F env e t tau t_k t_kp1,
    eval F env (convert_expr_from_tau_to_time e t tau t_k t_kp1) =
    eval F (upd env tau ((env t - t_k) / (t_kp1 - t_k))%Q) e.
Proof. exact tau_to_time_value. Qed.
Print Assumptions C06_tau_to_time_value.

Theorem C06_time_to_tau_value :
  forall F env e t tau t_k t_kp1,
    eval F env (convert_expr_from_time_to_tau e t tau t_k t_kp1) =
    eval F (upd env t (env tau * (t_kp1 - t_k) + t_k)%Q) e.
Proof. exact time_to_tau_value. Qed.
Print Assumptions C06_time_to_tau_value.

(** At valuations where t and tau denote the same instant of the element,
    neither conversion changes the value. *)
Theorem C06_conversions_preserve_value :
  forall F env e t tau t_k t_kp1,
    respects F -> ~ (t_k == t_kp1)%Q -> t <> tau ->
    (env t == t_k + env tau * (t_kp1 - t_k))%Q ->
    (eval F env (convert_expr_from_tau_to_time e t tau t_k t_kp1) == eval F env e)%Q /\
    (eval F env (convert_expr_from_time_to_tau e t tau t_k t_kp1) == eval F env e)%Q.
Proof. exact conversions_agree. Qed.
Print Assumptions C06_conversions_preserve_value.

(** The conversions cancel. *)
Theorem C06_round_trip_from_tau :
  forall F env e t tau t_k t_kp1,
    respects F -> ~ (t_k == t_kp1)%Q -> t <> tau -> ~ In t (symbols e) ->
    (eval F env (convert_expr_from_time_to_tau
                   (convert_expr_from_tau_to_time e t tau t_k t_kp1) t tau t_k t_kp1)
     == eval F env e)%Q.
Proof. exact tau_time_tau. Qed.
Print Assumptions C06_round_trip_from_tau.

Theorem C06_round_trip_from_time :
  forall F env e t tau t_k t_kp1,
    respects F -> ~ (t_k == t_kp1)%Q -> t <> tau -> ~ In tau (symbols e) ->
    (eval F env (convert_expr_from_tau_to_time
                   (convert_expr_from_time_to_tau e t tau t_k t_kp1) t tau t_k t_kp1)
     == eval F env e)%Q.
Proof. exact time_tau_time. Qed.
Print Assumptions C06_round_trip_from_time.

(** The rewritten variable is gone. *)
Theorem C06_tau_eliminated :
  forall e t tau t_k t_kp1,
    t <> tau -> ~ In tau (symbols (convert_expr_from_tau_to_time e t tau t_k t_kp1)).
Proof. exact tau_to_time_no_tau. Qed.
Print Assumptions C06_tau_eliminated.

Theorem C06_time_eliminated :
  forall e t tau t_k t_kp1,
    t <> tau -> ~ In t (symbols (convert_expr_from_time_to_tau e t tau t_k t_kp1)).
Proof. exact time_to_tau_no_t. Qed.
Print Assumptions C06_time_eliminated.

(** With t_k = 2 and t_kp1 = 6: tau*tau + x at x = 5, t = 3 (tau = 1/4). *)
Example C06_example :
  let e := EBin OAdd (EBin OMul (EVar 1) (EVar 1)) (EVar 2) in
  let env := fun s => match s with 0 => 3%Q | 1 => (1 # 4)%Q | _ => 5%Q end in
  (env 0%nat == 2 + env 1%nat * (6 - 2))%Q /\
  (eval (fun _ x => x) (upd env 1%nat 0%Q) (convert_expr_from_tau_to_time e 0%nat 1%nat 2%Q 6%Q)
   == 81 # 16)%Q.
Proof. split; vm_compute; reflexivity. Qed.

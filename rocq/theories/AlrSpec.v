(** Vocabulary for the results of the augmented Lagrangian method. *)
From Coq Require Import String.
From Verif Require Import Base UtilModel ExprModel SysModel OcpModel DiscModel DiscSpec ColSpec ResModel ResSpec AugModel AugSpec AlrModel.
Local Open Scope list_scope.
Local Open Scope nat_scope.

(** Component [i] of an additional entry of a result, at point [j] of element [el], and the
    time stored beside it. *)
Definition stored (r : opt_result) (name : string) (el j i : nat) : option Q :=
  match dget String.eqb name (w_other r) with
  | None => None
  | Some (v, _) => match nth_error (nth el v []) j with Some c => nth_error c i | None => None end
  end.
Definition stored_time (r : opt_result) (name : string) (el j : nat) : option Q :=
  match dget String.eqb name (w_other r) with
  | None => None
  | Some (_, t) => nth_error (nth el t []) j
  end.
Definition additions : list string := ["nu"; "alg_violation"; "eq_violation"]%string.
(** The method and the solver of its relaxed problem agree on points and elements. *)
Definition agreeing (opts : al_options) (k : method) : Prop :=
  al_degree opts = k_degree k /\ al_elements opts = k_elements k.
(** Multipliers of [n] equations and violations of [n_alg] and [n_eq], at every point of
    every element. *)
Definition pointwise (k : method) (n : nat) (l : list (list (list Q))) : Prop :=
  length l = k_elements k /\ Forall (fun cols => length cols = k_degree k /\ Forall (fun c => length c = n) cols) l.
Record reportable (k : method) (n n_alg n_eq : nat) (s : aug_state) : Prop := mkReportable
  { rp_nu : forall el, el < k_elements k -> exists v, dget Nat.eqb el (st_nu s) = Some v /\ length v = n * k_degree k;
    rp_alg : pointwise k n_alg (st_alg s);
    rp_eq : pointwise k n_eq (st_eq s) }.
(** The violation of an equation kept for a point. *)
Definition kept (l : list (list (list Q))) (el j i : nat) : option Q :=
  match nth_error (nth el l []) j with Some c => nth_error c i | None => None end.
(** An entry with the values of the equations [gs] on the trajectory [q]. *)
Definition reports (F : nat -> Q -> Q) (k : method) (pts : list Q) (q : trajectory) (r : opt_result) (name : string)
    (gs : list expr) : Prop :=
  forall el j tau i g, el < k_elements k -> nth_error pts j = Some tau -> nth_error gs i = Some g ->
    exists v, stored r name el j i = Some v /\ (v == value_on F k q el tau g)%Q.
(** Two results that differ at most in additional entries. *)
Record alike (r r' : opt_result) : Prop := mkAlike
  { al_grid : w_elements r = w_elements r' /\ w_degree_control r = w_degree_control r' /\ w_t_0 r = w_t_0 r' /\
      w_t_f r = w_t_f r' /\ w_breakpoints r = w_breakpoints r';
    al_names : w_x_names r = w_x_names r' /\ w_y_names r = w_y_names r' /\ w_u_names r = w_u_names r' /\
      w_theta_names r = w_theta_names r';
    al_values : w_x r = w_x r' /\ w_y r = w_y r' /\ w_u r = w_u r';
    al_times : w_x_time r = w_x_time r' /\ w_y_time r = w_y_time r' /\ w_u_time r = w_u_time r';
    al_rest : w_x_0 r = w_x_0 r' /\ w_p r = w_p r' /\ w_theta r = w_theta r' /\ w_p_opt r = w_p_opt r' /\
      w_theta_opt r = w_theta_opt r' /\ w_eta r = w_eta r' /\ w_cost r = w_cost r' }.

(** ** Example data *)

(** The pond of C46, started with violations zero and run with or without updates. *)
Definition pond_result (no_update improve : bool) (rule : string) (iterations : nat)
  : res (list sub_call * (opt_result * option (list Q))) :=
  match pond_method [] whole, pond_relaxed [] whole with
  | Ok a, Ok s =>
      let opts := pond_options rule improve iterations in
      match al_solve radau_two opts (fun _ _ _ => Raise AnyException) Collocation (ag_method a)
              (["level"; "cost"], ["outflow"], ["inflow"; "spare"], [])%string None
              (fun _ x => x) (create_nu_update_func radau_two a) no_update pond_solve None None None [2%Q]
              (start_violations opts 1 0 (start_aug opts s None), []) with
      | (_, Raise e) => Raise e
      | (st, Ok r) => Ok (snd st, r)
      end
  | Raise e, _ => Raise e
  | _, Raise e => Raise e
  end.
(** Two calls with parameters of the caller, none for the pond itself: what the result holds
    and what the last call was made with. *)
Definition pond_parameters : option ((list Q * dict nat (list Q) * list Q) * (list Q * theta Q)) :=
  match pond_method [] whole, pond_relaxed [] whole with
  | Ok a, Ok s =>
      let opts := pond_options "bounded-increase" false 2 in
      match al_solve radau_two opts (fun _ _ _ => Raise AnyException) Collocation (ag_method a)
              (["level"; "cost"], ["outflow"], ["inflow"; "spare"], [])%string None
              (fun _ x => x) (create_nu_update_func radau_two a) false pond_solve (Some []) (Some [(0%nat, []); (1%nat, [])]) None [2%Q]
              (start_violations opts 1 0 (start_aug opts s None), []) with
      | ((_, c :: _), Ok (r, _)) => Some ((w_p r, w_theta r, w_x_0 r), (sc_p c, sc_theta c))
      | _ => None
      end
  | _, _ => None
  end.
(** Additional entries in lowest terms, and the error. *)
Definition shown (x : res (list sub_call * (opt_result * option (list Q))))
  : list (string * (list (list (list Q)) * list (list Q))) * option (list Q) :=
  match x with
  | Ok (_, (r, e)) =>
      (map (fun kv => (fst kv, (map (map (map Qred)) (fst (snd kv)), map (map Qred) (snd (snd kv))))) (w_other r),
       option_map (map Qred) e)
  | Raise _ => ([], None)
  end.

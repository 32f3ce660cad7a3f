(** Model predictive control (mpc/mpc.py, "mp" below) and the ideal estimator
    (estimation/ideal_estimator.py). *)
From Coq Require Import String.
From Verif Require Import Base UtilModel ExprModel LagModel SysModel SimModel OcpModel DataModel DiscModel ResModel PlantModel.
Local Open Scope list_scope.
Local Open Scope cmd_scope.

(** ** Warm start *)

(** [l.pop(0)], [l.pop()], [l[-1]]. *)
Definition pop_first {A : Type} (l : list A) : res (list A) :=
  match l with [] => Raise IndexError | _ :: l' => Ok l' end.
Definition pop_last {A : Type} (l : list A) : res (list A) :=
  match l with [] => Raise IndexError | _ => Ok (removelast l) end.

Local Open Scope res_scope.
(** mp:298-329 [step].  The perturbation (mp:301-304) has size zero and is left out.  Only
    the collocation scheme has the method to repack. *)
Definition step (s : scheme) (k : method) (v : list Q) : res (list Q) :=
  r <- unpack_with s k v ;;
  ok <- match s with Collocation => Ok tt | Shooting => Raise AttributeError end ;;
  x1 <- pop_first (r_x r) ;;
  x2 <- pop_last x1 ;;
  xl <- last_of x2 ;;
  xll <- last_of xl ;;
  y1 <- pop_first (r_y r) ;;
  yl <- last_of y1 ;;
  u1 <- pop_first (r_u r) ;;
  ul <- last_of u1 ;;
  let next := collocation_repack
    (mkTraj (x2 ++ [xl; [xll]]) (y1 ++ [yl]) (u1 ++ [ul]) (r_eta r) (r_p r) (r_theta r)) in
  if (length v =? length next)%nat then Ok (map (fun q => q * (11 # 10))%Q next) else Raise AssertionError.

Local Close Scope res_scope.

(** ** Control functions *)

Section Control.
  Variable points : nat -> list Q.
  Variable F : nat -> Q -> Q.

  (** mp:151-169 [_make_control_function]: [substitute] takes one value for each
      parameter, or one number for all of them.  [a] and [b] are the current time of
      the plant and the end of the sample. *)
  Definition make_control_function (m : model) (degree : nat) (values : list Q) (a b : Q)
    : res (Q -> res (list Q)) :=
    let first := S (Nat.max (m_t m) (m_tau m)) in
    let (pol, par) := create_polynomial_approximation points (m_tau m) (length (m_u m)) degree first false in
    let use vs :=
      let es := map (fun e => convert_expr_from_tau_to_time e (m_t m) (m_tau m) a b)
                    (subst_vec pol par (map EConst vs)) in
      Ok (fun t => Ok (map (eval F (fun s => if Nat.eqb s (m_t m) then t else 0%Q)) es)) in
    if (length values =? length par)%nat then use values
    else match values with
         | [v] => use (repeat v (length par))
         | _ => Raise CasadiError
         end.
End Control.

(** ** The controller *)

(** ideal_estimator.py:15-24: the first rows of the measurement, no covariance. *)
Definition ideal_estimate (n_x : nat) (y : list Q) : list Q * list Q :=
  (firstn n_x y, repeat 0%Q (length (firstn n_x y))).

(** What [solution_method.solve] returns: one result with the vector of the solver, or
    a list of results. *)
Inductive solution := Single (raw : list Q) (r : opt_result) | Several (l : list opt_result).

(** mp:58-92: the options. *)
Record mpc_config := mkMpcConfig
  { g_plant : plant_config; g_method : method; g_scheme : scheme;
    g_include_cost : bool; g_mean : bool; g_mean_indices : list (nat * nat);
    g_covariance : bool; g_cov_indices : list (nat * nat);
    g_rearrange : option (list Q -> list Q) }.
Record mpc (E : Type) := mkMpc
  { b_plant : plant; b_guess : option (list Q); b_p : option (list Q); b_iteration : nat;
    b_last : option (list opt_result); b_estimator : E }.
Arguments mkMpc {E}. Arguments b_plant {E}. Arguments b_guess {E}. Arguments b_p {E}.
Arguments b_iteration {E}. Arguments b_last {E}. Arguments b_estimator {E}.

Section Mpc.
  Variable E : Type.
  Variable estimate : E -> Q -> list Q -> list Q -> E * res (list Q * list Q).
  Variable default : string -> nat -> string.
  Variable integrate : icall -> res (list Q * list Q).
  Variable defaults : options.
  Variable F : nat -> Q -> Q.
  Variables w_x w_m : nat -> list Q.
  Variable points : nat -> list Q.
  (** [solve(x_0, initial_guess, p, last_u)]. *)
  Variable solve : list Q -> option (list Q) -> option (list Q) -> list Q -> res solution.
  (** The breakpoint left in the code (mp:134): continues, or fails without ipdb. *)
  Variable breakpoint : res unit.
  Variable c : mpc_config.
  Notation state := (mpc E).

  Definition set_b_plant (p : plant) (s : state) : state :=
    mkMpc p (b_guess s) (b_p s) (b_iteration s) (b_last s) (b_estimator s).
  Definition set_b_guess (g : option (list Q)) (s : state) : state :=
    mkMpc (b_plant s) g (b_p s) (b_iteration s) (b_last s) (b_estimator s).
  Definition set_b_p (p : option (list Q)) (s : state) : state :=
    mkMpc (b_plant s) (b_guess s) p (b_iteration s) (b_last s) (b_estimator s).
  Definition set_b_iteration (n : nat) (s : state) : state :=
    mkMpc (b_plant s) (b_guess s) (b_p s) n (b_last s) (b_estimator s).
  Definition set_b_last (l : option (list opt_result)) (s : state) : state :=
    mkMpc (b_plant s) (b_guess s) (b_p s) (b_iteration s) l (b_estimator s).
  Definition set_b_estimator (e : E) (s : state) : state :=
    mkMpc (b_plant s) (b_guess s) (b_p s) (b_iteration s) (b_last s) e.

  (** mp:104-119 [get_states]. *)
  Definition get_states (t : Q) (y u : list Q) : cmd state (list Q * list Q) :=
    fun s => match estimate (b_estimator s) t y u with
             | (e, Raise x) => (set_b_estimator e s, Raise x)
             | (e, Ok (x, cov)) =>
                 (set_b_estimator e s, Ok ((if g_include_cost c then x ++ [0%Q] else x), cov))
             end.

  (** mp:331-341 [_get_parameter]: the vector [self.p] is changed in place. *)
  Definition write_entry (source : list Q) (ij : nat * nat) : cmd state unit :=
    cset (fun s => match b_p s with
                   | None => Raise TypeError
                   | Some p => match nth_error source (fst ij) with
                               | None => Raise CasadiError
                               | Some v => if (snd ij <? length p)%nat then Ok (Some (set_nth p (snd ij) v))
                                           else Raise CasadiError
                               end
                   end) set_b_p.
  Definition get_parameter (x cov : list Q) : cmd state (option (list Q)) :=
    (if g_mean c then crun (write_entry x) (g_mean_indices c) else cret tt) ;;;
    (if g_covariance c then crun (write_entry cov) (g_cov_indices c) else cret tt) ;;;
    (fun s => (s, Ok (b_p s))).

  (** mp:121-149 [get_new_control].  A list of results has no raw decision variables. *)
  Definition get_new_control (x u : list Q) (p : option (list Q)) : cmd state (list Q) :=
    cres breakpoint ;;;
    z <~ (fun s => (s, solve x (b_guess s) p u)) ;;
    match z with
    | Several _ => craise AttributeError
    | Single raw r =>
        cset (fun _ => match step (g_scheme c) (g_method c) raw with
                       | Ok g => Ok (Some g) | Raise e => Raise e end) set_b_guess ;;;
        cmodify (set_b_last (Some [r])) ;;;
        cres (first_control r)
    end.

  (** mp:171-184 [send_control]: the control given is not used. *)
  Definition send_control (u : list Q) : cmd state unit :=
    fun s =>
      match b_last s with
      | None => (s, Raise TypeError)
      | Some l =>
          match at_index l 0 IndexError with
          | Raise e => (s, Raise e)
          | Ok r =>
              match first_control_parameters r with
              | Raise e => (s, Raise e)
              | Ok pars =>
                  match pars with
                  | [] => (s, Raise NotImplementedErr)
                  | _ =>
                      let t := a_t (b_plant s) in
                      match make_control_function points F (f_model (g_plant c)) (k_degree (g_method c))
                              (concat pars) t (t + f_t_s (g_plant c))%Q with
                      | Raise e => (s, Raise e)
                      | Ok f =>
                          match set_control_function default integrate defaults F w_x w_m (g_plant c) f (b_plant s) with
                          | (p, r) => (set_b_plant p s, r)
                          end
                      end
                  end
              end
          end
      end.

  (** mp:207-239: one round of [run]. *)
  Definition cycle : cmd state unit :=
    cmodify (fun s => set_b_iteration (S (b_iteration s)) s) ;;;
    m <~ (fun s => (s, Ok (get_measurement (b_plant s)))) ;;
    xc <~ get_states (fst (fst m)) (snd (fst m)) (snd m) ;;
    p <~ get_parameter (fst xc) (snd xc) ;;
    u <~ get_new_control (match g_rearrange c with Some f => f (fst xc) | None => fst xc end) (snd m) p ;;
    send_control u.

  (** mp:201-244 [run]: a loop without end, left by [break].  [run_from n k s r]: started
      with counter [k] in state [s], the loop ends with [r]. *)
  Inductive run_from (n : Z) : Z -> state -> state * res unit -> Prop :=
  | run_fails : forall k s s' e, cycle s = (s', Raise e) -> run_from n k s (s', Raise e)
  | run_breaks : forall k s s', cycle s = (s', Ok tt) -> (n - 1 <= k)%Z -> run_from n k s (s', Ok tt)
  | run_goes_on : forall k s s' r, cycle s = (s', Ok tt) -> ~ (n - 1 <= k)%Z ->
      run_from n (k + 1) s' r -> run_from n k s r.
  Definition run (n : Z) (s : state) (r : state * res unit) : Prop := run_from n 0 s r.

  (** mp:246-267 and 269-296. *)
  Definition fixed_round (u : list Q) : cmd state unit :=
    cmodify (fun s => set_b_iteration (S (b_iteration s)) s) ;;;
    send_control u.
  Definition run_fixed_control (u : list Q) (n : nat) : cmd state unit :=
    crun (fun _ => fixed_round u) (seq 0 n).
  Definition estimating_round (u : list Q) : cmd state unit :=
    cmodify (fun s => set_b_iteration (S (b_iteration s)) s) ;;;
    m <~ (fun s => (s, Ok (get_measurement (b_plant s)))) ;;
    get_states (fst (fst m)) (snd (fst m)) (snd m) ;;;
    send_control u.
  Definition run_fixed_control_with_estimator (u : list Q) (n : nat) : cmd state unit :=
    crun (fun _ => estimating_round u) (seq 0 n).
End Mpc.

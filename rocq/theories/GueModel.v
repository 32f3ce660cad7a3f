(** Model of the initial guess by simulation:
    yaocptool/methods/classic/collocationscheme.py:642-746 (below: col),
    yaocptool/methods/classic/multipleshooting.py:506-607 (below: ms) and of the choice of
    the guess in yaocptool/methods/base/solutionmethodsbase.py:388-412 (below: smb). *)
From Coq Require Import String.
From Verif Require Import Base UtilModel ExprModel NlpModel SysModel SimModel OcpModel LagModel DiscModel.
Local Open Scope list_scope.
Local Open Scope nat_scope.
Local Open Scope res_scope.

(** The keyword arguments of a simulation, col:710 and ms:571. *)
Record sim_args := mkSimArgs
  { sa_x0 : list Q; sa_t0 : Q; sa_tf : Q; sa_p : list Q; sa_y0 : option (list Q) }.

Section Guess.
  (** casadi: building and calling an integrator; config.INTEGRATOR_OPTIONS. *)
  Variable integrate : icall -> res (list Q * list Q).
  Variable defaults : options.
  (** The functions of the user, where they are given. *)
  Variable in_transform : option (sim_args -> res sim_args).
  Variable out_transform : option (list Q * list Q -> res (list Q * list Q)).

  (** col:710-719 and ms:571-578: one simulation, with the default integrator. *)
  Definition guess_step (d : dae) (a : sim_args) : res (list Q * list Q) :=
    a' <- match in_transform with Some f => f a | None => Ok a end ;;
    z <- dae_simulate integrate defaults d (sa_x0 a') (sa_tf a') (sa_t0 a') (sa_p a') (sa_y0 a')
           "implicit" [] ;;
    match out_transform with Some f => f z | None => Ok z end.

  (** col:709-723 and ms:570-584: the loop over the times after the first one. *)
  Fixpoint guess_points (d : dae) (p : list Q) (y0 : option (list Q)) (t_init : Q) (ts : list Q)
      (x0 : list Q) : res (list (list Q * list Q)) :=
    match ts with
    | [] => Ok []
    | t :: ts' =>
        z <- guess_step d (mkSimArgs x0 t_init t p y0) ;;
        zs <- guess_points d p y0 t ts' (fst z) ;;
        Ok (z :: zs)
    end.

  (** col:695-708 and ms:558-569: one element.  Without theta the element cannot be read;
      casadi's [vertcat] does not take None for p. *)
  Definition guess_element (m : model) (p : option (list Q)) (theta : option (dict nat (list Q)))
      (u : list Q) (y0 : option (list Q)) (el : nat) (times : list Q) (x0 : list Q)
      : res (list (list Q * list Q)) :=
    match times with
    | [] => Raise IndexError
    | t :: ts =>
        match dae_convert_from_tau_to_time t (last times t) (get_dae_system m) with
        | (_, Raise e) => Raise e
        | (d, Ok _) =>
            th <- match theta with
                  | None => Raise TypeError
                  | Some f => match dget Nat.eqb el f with Some v => Ok v | None => Raise KeyError end
                  end ;;
            pv <- match p with Some v => Ok v | None => Raise NotImplementedErr end ;;
            guess_points d (pv ++ th ++ u) y0 t ts x0
        end
    end.
  (** col:690-728 and ms:553-589: the loop over the elements, from [el] on.  Gives the
      first state of every element and the results of its simulations. *)
  Fixpoint guess_elements (m : model) (p : option (list Q)) (theta : option (dict nat (list Q)))
      (u : list Q) (y0 : option (list Q)) (el : nat) (grid : list (list Q)) (x0 : list Q)
      : res (list (list Q * list (list Q * list Q))) :=
    match grid with
    | [] => Ok []
    | times :: rest =>
        zs <- guess_element m p theta u y0 el times x0 ;;
        l <- guess_elements m p theta u y0 (S el) rest (last (map fst zs) x0) ;;
        Ok ((x0, zs) :: l)
    end.

  (** col:673-688 and ms:536-548: the control parameters, the same in all elements.
      Collocation asks the model of the problem for the sizes, multiple shooting the
      model of the simulation. *)
  Definition guess_control (m : model) (k : method) (u : option (list Q)) : res (list Q) :=
    let o := k_problem k in
    let v := match u with
             | Some v => v
             | None => match o_u_guess o with
                       | Some v => v
                       | None => match o_last_u o with Some v => v | None => zeros (length (m_u m)) end
                       end
             end in
    if (0 <? length (m_u_par m)) then
      if (k_degree_control k =? 0) then Raise NotImplementedErr else Ok (repmat v (k_degree_control k))
    else Ok [].

  (** col:736-746 and ms:597-607: free final variables and optimised parameters. *)
  Definition guess_others (k : method) (p : option (list Q)) (theta : option (dict nat (list Q)))
      : res (list Q) :=
    let o := k_problem k in
    a <- match p with
         | None => Ok (zeros (n_p_opt k))
         | Some v => pick v (get_p_opt_indices o)
         end ;;
    b <- match theta with
         | None => Ok (zeros (n_theta_opt k * k_elements k))
         | Some d =>
             fold_right (fun el acc =>
               match dget Nat.eqb el d, acc with
               | Some v, Ok l => match pick v (get_theta_opt_indices o) with
                                 | Ok a => Ok (a ++ l) | Raise e => Raise e end
               | None, Ok _ => Raise KeyError
               | _, Raise e => Raise e
               end) (Ok []) (seq 0 (k_elements k))
         end ;;
    Ok (zeros (n_eta k) ++ a ++ b).

  Definition guess_model (k : method) (model : option model) : SysModel.model :=
    match model with Some m => m | None => k_model k end.
  Definition guess_breakpoints (k : method) : list Q :=
    match breakpoints k with Ok l => l | Raise _ => [] end.

  (** col:642-746 [create_initial_guess_with_simulation]. *)
  Definition collocation_sim_guess (points : nat -> list Q) (k : method) (u p : option (list Q))
      (theta : option (dict nat (list Q))) (model : option model) : res (list Q) :=
    let o := k_problem k in
    let dt := match delta_t k with Ok q => q | Raise _ => 0%Q end in
    uv <- guess_control (k_model k) k u ;;
    l <- guess_elements (guess_model k model) p theta uv (o_y_guess o) 0
           (interpolation_times dt (guess_breakpoints k) (state_taus points k)) (o_x_0 o) ;;
    rest <- guess_others k p theta ;;
    Ok (concat (concat (map (fun e => fst e :: map fst (snd e)) l)) ++
        concat (concat (map (fun e => map snd (snd e)) l)) ++
        concat (repeat uv (k_elements k)) ++ rest).

  (** ms:506-607 [create_initial_guess_with_simulation]: p defaults to the empty vector. *)
  Definition shooting_sim_guess (k : method) (u p : option (list Q))
      (theta : option (dict nat (list Q))) (model : option model) : res (list Q) :=
    let o := k_problem k in
    let m := guess_model k model in
    let pv := match p with Some v => v | None => [] end in
    let bps := guess_breakpoints k in
    uv <- guess_control m k u ;;
    l <- guess_elements m (Some pv) theta uv (o_y_guess o) 0
           (map (fun ab => [fst ab; snd ab]) (combine (removelast bps) (tl bps))) (o_x_0 o) ;;
    rest <- guess_others k (Some pv) theta ;;
    Ok (o_x_0 o ++ concat (concat (map (fun e => map fst (snd e)) l)) ++
        concat (concat (map (fun e => map snd (snd e)) l)) ++
        concat (repeat uv (k_elements k)) ++ rest).

  (** smb:388-412: the guess given to the solver.  [by_simulation] and [by_info] are the
      functions of the discretiser; a guess given by the user is taken as it is. *)
  Definition solver_guess
      (by_simulation : option (list Q) -> option (list Q) -> option (dict nat (list Q)) -> option model -> res (list Q))
      (by_info : option (list Q) -> option (dict nat (list Q)) -> res (list Q))
      (k : method) (heuristic : string) (model : option model) (given : option (list Q))
      (x_0 p : option (list Q)) (theta : option (dict nat (list Q))) (last_u : option (list Q))
      : res (call_args * list Q) :=
    a <- get_solver_call_args k x_0 p theta last_u ;;
    g <- match given with
         | Some g => Ok g
         | None =>
             if String.eqb heuristic "simulation" then by_simulation None (Some (a_p a)) (Some (a_theta a)) model
             else if String.eqb heuristic "problem_info" then by_info (Some (a_p a)) (Some (a_theta a))
             else Raise ValueError
         end ;;
    Ok (a, g).
End Guess.

(** Results of optimal control problems (methods/base/optimizationresult.py, "or" below,
    methods/base/solutionmethodsbase.py:461-519 and the two
    [set_data_to_optimization_result_from_raw_data]). *)
From Coq Require Import String.
From Verif Require Import Base UtilModel ExprModel SysModel SimModel OcpModel DataModel DiscModel.
Local Open Scope list_scope.
Local Open Scope cmd_scope.

(** or:14-66 [OptimizationResult]: values per element and point, with their times, and
    the other attributes set by smb:461-519.  The solver statistics, the raw dictionary
    and the values of objective and constraints are carried along and not modelled. *)
Record opt_result := mkResult
  { w_elements : nat; w_degree_control : nat; w_t_0 : Q; w_t_f : Q; w_breakpoints : list Q;
    w_x_names : list string; w_y_names : list string; w_u_names : list string; w_theta_names : list string;
    w_x : list (list (list Q)); w_y : list (list (list Q)); w_u : list (list (list Q));
    w_x_time : list (list Q); w_y_time : list (list Q); w_u_time : list (list Q);
    w_other : dict string (list (list (list Q)) * list (list Q));
    w_x_0 : list Q; w_p : list Q; w_theta : dict nat (list Q);
    w_p_opt : list Q; w_theta_opt : list (list Q); w_eta : list Q; w_cost : option (list Q) }.

(** ** Access *)

(** or:96-105. *)
Definition first_control (r : opt_result) : res (list Q) :=
  match at_index (w_u r) 0 IndexError with
  | Ok el => at_index el 0 IndexError
  | Raise e => Raise e
  end.
Definition first_control_parameters (r : opt_result) : res (list (list Q)) := at_index (w_u r) 0 IndexError.

(** or:107-125 [get_variable] with a list of indices (an index is a list of one): the
    components of every vector; an index outside a vector is an error of casadi. *)
Definition get_variable (r : opt_result) (type : string) (idx : list nat) : res (list (list (list Q))) :=
  let pick_all data := res_map (fun el => res_map (fun v => pick v idx) el) data in
  if String.eqb type "x" then pick_all (w_x r)
  else if String.eqb type "y" then pick_all (w_y r)
  else if String.eqb type "u" then pick_all (w_u r)
  else Raise NotImplementedErr.

(** [names.index(name)]. *)
Fixpoint index_of (name : string) (names : list string) : option nat :=
  match names with
  | [] => None
  | n :: l => if String.eqb name n then Some 0
              else match index_of name l with Some i => Some (S i) | None => None end
  end.
(** or:127-143 [get_variable_by_name]: the three are tried one after the other, only the
    failure of [index] is suppressed. *)
Definition get_variable_by_name (r : opt_result) (name : string) : res (list (list (list Q))) :=
  let attempt type names (found : option (list (list (list Q)))) :=
    match index_of name names with
    | None => Ok found
    | Some i => match get_variable r type [i] with
                | Ok v => Ok (Some v)
                | Raise e => Raise e
                end
    end in
  match attempt "x"%string (w_x_names r) None with
  | Raise e => Raise e
  | Ok f1 => match attempt "y"%string (w_y_names r) f1 with
             | Raise e => Raise e
             | Ok f2 => match attempt "u"%string (w_u_names r) f2 with
                        | Raise e => Raise e
                        | Ok (Some v) => Ok v
                        | Ok None => Raise ValueError
                        end
             end
  end.

(** or:74-94 [is_valid]: no attribute [objective] is ever set. *)
Definition is_valid (r : opt_result) : res bool :=
  if negb (Qle_bool 0 (w_t_0 r)) then Raise AnyException
  else if negb (Qle_bool 0 (w_t_f r)) then Raise AnyException
  else match w_breakpoints r with
       | [] => Raise AnyException
       | _ => Raise AttributeError
       end.

(** ** Conversion to a data set *)

(** [horzcat] of a list of times; without arguments it fails. *)
Definition time_of_list (l : list Q) : res time_arg :=
  match l with [] => Raise NotImplementedErr | _ => Ok (TimeRow l) end.
(** [dataset.insert_data] with the concatenations of the times and of the values. *)
Definition insert_block (k : string) (times : list Q) (values : list (list Q)) : cmd dataset unit :=
  t <~ cres (time_of_list times) ;;
  v <~ cres (columns values) ;;
  insert_data k t v.
(** The same for one element of lists of times and values. *)
Definition insert_element (k : string) (times : list (list Q)) (values : list (list (list Q))) (el : nat)
  : cmd dataset unit :=
  t <~ cres (at_index times el IndexError) ;;
  v <~ cres (at_index values el IndexError) ;;
  insert_block k t v.

Definition set_e_style (s : string) (e : entry) : entry :=
  mkEntry (e_names e) (e_size e) (e_time e) (e_values e) s.

(** or:145-208 [to_dataset].  The data set is returned or nothing. *)
Definition to_dataset_steps (default : string -> nat -> string) (r : opt_result) : cmd dataset unit :=
  let entry k names style := create_entry default k (Some (length names)) (Some names) style in
  let has (names : list string) := match names with [] => false | _ => true end in
  entry "x"%string (w_x_names r) "plot"%string ;;;
  entry "y"%string (w_y_names r) "plot"%string ;;;
  entry "u"%string (w_u_names r) "plot"%string ;;;
  entry "theta_opt"%string (w_theta_names r) "step"%string ;;;
  crun (fun o : string * (list (list (list Q)) * list (list Q)) =>
          size <~ cres (match at_index (fst (snd o)) 0 IndexError with
                        | Ok el => at_index el 0 IndexError | Raise e => Raise e end) ;;
          create_entry default (fst o) (Some (length (size : list Q)))
            (Some (map (default (fst o)) (seq 0 (length size)))) "plot"%string) (w_other r) ;;;
  cset (fun d => match look "u" d with
                 | None => Raise KeyError
                 | Some e => Ok (set_e_style (if (1 <? w_degree_control r)%nat then "plot" else "step") e)
                 end) (put "u") ;;;
  (if has (w_x_names r)
   then crun (insert_element "x" (w_x_time r ++ [[w_t_f r]]) (w_x r)) (seq 0 (w_elements r + 1))
   else cret tt) ;;;
  crun (fun el =>
          (if has (w_y_names r) then insert_element "y" (w_y_time r) (w_y r) el else cret tt) ;;;
          (if has (w_u_names r) then insert_element "u" (w_u_time r) (w_u r) el else cret tt))
       (seq 0 (w_elements r)) ;;;
  (if has (w_theta_names r) then insert_block "theta_opt" (removelast (w_breakpoints r)) (w_theta_opt r)
   else cret tt) ;;;
  crun (fun o : string * (list (list (list Q)) * list (list Q)) =>
          crun (insert_element (fst o) (snd (snd o)) (fst (snd o))) (seq 0 (w_elements r))) (w_other r).
Definition to_dataset (default : string -> nat -> string) (r : opt_result) : res dataset :=
  match to_dataset_steps default r [] with
  | (d, Ok _) => Ok d
  | (_, Raise e) => Raise e
  end.

(** ** Creation *)

(** The two schemes. *)
Inductive scheme := Collocation | Shooting.
Definition unpack_with {A : Type} (s : scheme) : method -> list A -> res (traj A) :=
  match s with Collocation => collocation_unpack | Shooting => shooting_unpack end.

(** [v[indices] = values] for a DM: an index outside is an error. *)
Definition write (v : list Q) (idx : list nat) (values : list Q) : res (list Q) :=
  if forallb (fun i => (i <? length v)%nat) idx
  then Ok (fold_left (fun acc iv => set_nth acc (fst iv) (snd iv)) (combine idx values) v)
  else Raise CasadiError.

(** The parameter vector and the theta dictionary are the objects of the caller: the
    state of the command.  col:771-775 and ms:634-638. *)
Definition arguments : Type := list Q * dict nat (list Q).
Definition write_p (k : method) (p_opt : list Q) : cmd arguments unit :=
  cset (fun a => write (fst a) (get_p_opt_indices (k_problem k)) p_opt) (fun v a => (v, snd a)).
Definition write_theta (k : method) (theta_opt : list (list Q)) (el : nat) : cmd arguments unit :=
  cset (fun a => match dget Nat.eqb el (snd a), at_index theta_opt el IndexError with
                 | None, _ => Raise KeyError
                 | _, Raise e => Raise e
                 | Some v, Ok w => write v (get_theta_opt_indices (k_problem k)) w
                 end) (fun v a => (fst a, dset Nat.eqb el v (snd a))).

Section Create.
  Variable points : nat -> list Q.
  (** The controls evaluated from their expressions at the times given, for a method
      without control parameters (col:779-803, ms:641-665). *)
  Variable evaluated : traj Q -> arguments -> list (list Q) -> res (list (list (list Q))).

  Definition state_times (s : scheme) (k : method) (dt : Q) (bps : list Q) : list (list Q) :=
    match s with
    | Collocation => interpolation_times dt bps (state_taus points k)
    | Shooting => map (fun t => [t]) bps
    end.
  Definition algebraic_times (s : scheme) (k : method) (dt : Q) (bps : list Q) : list (list Q) :=
    match s with
    | Collocation => interpolation_times dt bps (algebraic_taus points k)
    | Shooting => map (fun t => [t]) (tl bps)
    end.
  Definition control_times (s : scheme) (k : method) (dt : Q) (bps : list Q) : list (list Q) :=
    match s with
    | Collocation => interpolation_times dt bps (control_taus points k)
    | Shooting => if (k_degree_control k =? 1)%nat then map (fun t => [t]) (removelast bps)
                  else interpolation_times dt bps (points (k_degree_control k))
    end.

  (** smb:461-519 with col:748-818 or ms:609-693.  [names] are those of the model's x, y
      and u and of the problem's theta_opt; [x_cost] is [problem.x_cost]. *)
  Definition create_optimization_result (s : scheme) (k : method)
      (names : list string * list string * list string * list string) (x_cost : option (list sym))
      (raw : list Q) (x_0 : list Q) : cmd arguments opt_result :=
    dt <~ cres (delta_t k) ;;
    bps <~ cres (breakpoints k) ;;
    r <~ cres (unpack_with s k raw) ;;
    write_p k (r_p r) ;;;
    (fun a => run_all (write_theta k (r_theta r)) (map fst (snd a)) a) ;;;
    u0 <~ cres (at_index (r_u r) 0 IndexError) ;;
    u <~ (match u0 with
          | [] => fun a => (a, evaluated r a (interpolation_times dt bps (control_taus points k)))
          | _ => cret (r_u r)
          end) ;;
    cost <~ cres (match x_cost with
                  | None => Ok None
                  | Some v => match last_of (r_x r) with
                              | Raise e => Raise e
                              | Ok el => match last_of el with
                                         | Raise e => Raise e
                                         | Ok x => match pick x (find_variables_indices_in_vector Nat.eqb v (m_x (k_model k))) with
                                                   | Ok c => Ok (Some c)
                                                   | Raise e => Raise e
                                                   end
                                         end
                              end
                  end) ;;
    fun a =>
      (a, Ok (mkResult (k_elements k) (k_degree_control k) (o_t_0 (k_problem k)) (o_t_f (k_problem k)) bps
                (fst (fst (fst names))) (snd (fst (fst names))) (snd (fst names)) (snd names)
                (r_x r) (r_y r) u (state_times s k dt bps) (algebraic_times s k dt bps) (control_times s k dt bps)
                [] x_0 (fst a) (snd a) (r_p r) (r_theta r) (r_eta r) cost)).
End Create.

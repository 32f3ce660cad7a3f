(** Data sets and simulation results (modelling/dataset.py,
    modelling/simulation_result.py). *)
From Coq Require Import String.
From Verif Require Import Base ExprModel SysModel SimModel.
Local Open Scope list_scope.
Local Open Scope cmd_scope.

(** A DM matrix as its number of rows and its columns. *)
Record mat := mkMat { mrows : nat; mcols : list (list Q) }.
(** [DM()], of shape 0 by 0. *)
Definition null : mat := mkMat 0 [].
Definition is_null (m : mat) : bool :=
  match mrows m, mcols m with O, [] => true | _, _ => false end.

(** casadi's [horzcat] of two matrices: matrices of shape 0 by 0 are skipped, the
    others must have the same number of rows. *)
Definition horzcat (a b : mat) : res mat :=
  if is_null a then Ok b
  else if is_null b then Ok a
  else if (mrows a =? mrows b)%nat then Ok (mkMat (mrows a) (mcols a ++ mcols b))
  else Raise CasadiError.

(** dataset.py:19-29 [Entry].  The time row is the list of its elements. *)
Record entry := mkEntry
  { e_names : list string; e_size : option nat; e_time : list Q; e_values : mat;
    e_style : string }.
Definition set_e_size (n : option nat) (e : entry) : entry :=
  mkEntry (e_names e) n (e_time e) (e_values e) (e_style e).
Definition set_e_time (t : list Q) (e : entry) : entry :=
  mkEntry (e_names e) (e_size e) t (e_values e) (e_style e).
Definition set_e_values (v : mat) (e : entry) : entry :=
  mkEntry (e_names e) (e_size e) (e_time e) v (e_style e).

(** dataset.py:32-53: the dictionary [data]; the name and the default plot style of a
    data set are not modelled. *)
Definition dataset := dict string entry.

(** [self.data[k] = e] and [self.data[k]]. *)
Definition put (k : string) (e : entry) (d : dataset) : dataset := dset String.eqb k e d.
Definition look (k : string) (d : dataset) : option entry := dget String.eqb k d.

(** dataset.py:82-102 [create_entry].  [default entry i] is [entry + "_" + str(i)]. *)
Definition create_entry (default : string -> nat -> string) (k : string) (size : option nat)
    (names : option (list string)) (style : string) : cmd dataset unit :=
  cset (fun _ => match names, size with
                 | Some ns, _ => Ok ns
                 | None, Some n => Ok (map (default k) (seq 0 n))
                 | None, None => Raise TypeError
                 end)
       (fun ns d => put k (mkEntry ns size [] null style) d).

(** The time argument of [insert_data]: a Python list, a number or a DM row. *)
Inductive time_arg := TimeList (l : list Q) | TimeNum (q : Q) | TimeRow (l : list Q).
(** dataset.py:139-142; [horzcat] without arguments fails. *)
Definition time_row (t : time_arg) : res (list Q) :=
  match t with
  | TimeList [] => Raise NotImplementedErr
  | TimeList l => Ok l
  | TimeNum q => Ok [q]
  | TimeRow l => Ok l
  end.

(** dataset.py:132-154 [insert_data], with the misspelt [self.data["entry"]]. *)
Definition insert_data (k : string) (time : time_arg) (value : mat) : cmd dataset unit :=
  fun d =>
    match time_row time with
    | Raise e => (d, Raise e)
    | Ok ts =>
        (cguard (fun _ => negb (length ts =? length (mcols value))%nat) ValueError ;;;
         cset (fun d => match look k d with
                        | None => Raise KeyError
                        | Some e => match horzcat (e_values e) value with
                                    | Raise x => Raise x
                                    | Ok v => Ok (set_e_values v e)
                                    end
                        end) (put k) ;;;
         cset (fun d => match look k d with
                        | None => Raise KeyError
                        | Some e => Ok (set_e_time (e_time e ++ ts) e)
                        end) (put k) ;;;
         (fun d => match look k d with
                   | Some (mkEntry _ None _ _ _) =>
                       cset (fun d => match look "entry" d with
                                      | None => Raise KeyError
                                      | Some e => Ok (set_e_size (Some (mrows value)) e)
                                      end) (put "entry") d
                   | _ => (d, Ok tt)
                   end)) d
    end.

(** Python's stable [sorted] with the time as key, as an insertion sort. *)
Fixpoint insert_point (p : Q * list Q) (l : list (Q * list Q)) : list (Q * list Q) :=
  match l with
  | [] => [p]
  | a :: l' => if Qle_bool (fst p) (fst a) then p :: l else a :: insert_point p l'
  end.
Definition sort_points (l : list (Q * list Q)) : list (Q * list Q) := fold_right insert_point [] l.

(** dataset.py:207-224: one iteration of [sort]; without points the unpacking of
    [zip] fails. *)
Definition sort_entry (k : string) : cmd dataset unit :=
  cset (fun d => match look k d with
                 | None => Raise KeyError
                 | Some e =>
                     match sort_points (combine (e_time e) (mcols (e_values e))) with
                     | [] => Raise ValueError
                     | ps => Ok (set_e_values (mkMat (mrows (e_values e)) (map snd ps))
                                              (set_e_time (map fst ps) e))
                     end
                 end) (put k).
(** dataset.py:198-224 [sort]. *)
Definition sort (entries : option (list string)) : cmd dataset unit :=
  fun d => run_all sort_entry (match entries with Some l => l | None => dkeys d end) d.

Definition size_eqb (a b : option nat) : bool :=
  match a, b with
  | Some n, Some k => (n =? k)%nat
  | None, None => true
  | _, _ => false
  end.

(** dataset.py:176-194: one iteration of [extend].  The sizes are compared first, which
    needs the entry to exist, so the creation of a missing entry is never reached. *)
Definition extend_entry (other : dataset) (k : string) : cmd dataset unit :=
  fun d =>
    match look k d, look k other with
    | Some e, Some e' =>
        if size_eqb (e_size e) (e_size e')
        then insert_data k (TimeRow (e_time e')) (e_values e') d
        else (d, Raise ValueError)
    | _, _ => (d, Raise KeyError)
    end.
(** dataset.py:168-196 [extend]. *)
Definition extend (other : dataset) : cmd dataset unit :=
  fun d => (run_all (extend_entry other) (dkeys other) ;;; sort None) d.

Inductive data_op :=
| DCreate (k : string) (size : option nat) (names : option (list string)) (style : string)
| DInsert (k : string) (time : time_arg) (value : mat)
| DSort (entries : option (list string))
| DExtend (other : dataset).
Definition data_step (default : string -> nat -> string) (op : data_op) : cmd dataset unit :=
  match op with
  | DCreate k n names style => create_entry default k n names style
  | DInsert k t v => insert_data k t v
  | DSort es => sort es
  | DExtend o => extend o
  end.

(** ** Simulation results *)

(** simulation_result.py:8-36; model name and [delta_t] are not modelled. *)
Record sim_result := mkSimResult
  { r_t_0 : Q; r_t_f : Q; r_elements : nat; r_data : dataset }.

(** simulation_result.py:9-36 [__init__]: the number of elements given is not stored. *)
Definition new_sim_result (default : string -> nat -> string) (n_x n_y n_u : nat)
    (names : option (list string) * option (list string) * option (list string))
    (t_0 t_f : Q) (finite_elements : nat) : sim_result :=
  let '(nx, ny, nu) := names in
  mkSimResult t_0 t_f 0
    (fst ((create_entry default "x" (Some n_x) nx "plot" ;;;
           create_entry default "y" (Some n_y) ny "plot" ;;;
           create_entry default "u" (Some n_u) nu "plot") [])).

(** Last column of a matrix: [values[:, -1]]. *)
Definition last_column (m : mat) : res (list Q) :=
  match rev (mcols m) with [] => Raise CasadiError | c :: _ => Ok c end.
(** simulation_result.py:83-92 [final_condition]. *)
Definition final_condition (r : sim_result) : res (list Q * list Q * list Q) :=
  match look "x" (r_data r), look "y" (r_data r), look "u" (r_data r) with
  | Some ex, Some ey, Some eu =>
      match last_column (e_values ex), last_column (e_values ey), last_column (e_values eu) with
      | Ok a, Ok b, Ok c => Ok (a, b, c)
      | Raise e, _, _ => Raise e
      | _, Raise e, _ => Raise e
      | _, _, Raise e => Raise e
      end
  | _, _, _ => Raise KeyError
  end.

(** The properties [n_x], [n_y], [n_u] (simulation_result.py:60-69). *)
Definition dim (k : string) (r : sim_result) : res (option nat) :=
  match look k (r_data r) with Some e => Ok (e_size e) | None => Raise KeyError end.
(** simulation_result.py:94-115 [extend]. *)
Definition same_dim (k : string) (other : sim_result) : cmd sim_result unit :=
  fun r => match dim k r, dim k other with
           | Ok a, Ok b => if size_eqb a b then (r, Ok tt) else (r, Raise AnyException)
           | _, _ => (r, Raise KeyError)
           end.
Definition on_data (c : cmd dataset unit) : cmd sim_result unit :=
  fun r => match c (r_data r) with
           | (d, x) => (mkSimResult (r_t_0 r) (r_t_f r) (r_elements r) d, x)
           end.
Definition sim_extend (other : sim_result) : cmd sim_result unit :=
  same_dim "x" other ;;; same_dim "y" other ;;; same_dim "u" other ;;;
  cmodify (fun r => mkSimResult
     (if Qle_bool (r_t_0 r) (r_t_0 other) then r_t_0 r else r_t_0 other)
     (if Qle_bool (r_t_f other) (r_t_f r) then r_t_f r else r_t_f other)
     (r_elements r + r_elements other) (r_data r)) ;;;
  on_data (extend (r_data other)).

(** [horzcat] of a list of vectors; without arguments it fails. *)
Definition columns (l : list (list Q)) : res mat :=
  match l with
  | [] => Raise NotImplementedErr
  | c :: _ => if forallb (fun v => (length v =? length c)%nat) l
              then Ok (mkMat (length c) l) else Raise CasadiError
  end.
(** system_model.py:668-693: the result that [simulate] returns, from the points it
    computed (SimModel).  The names are those of the variables; [t_f] is not empty. *)
Definition result_of (default : string -> nat -> string) (m : model) (t_0 : Q) (t_f : list Q)
    (names : option (list string) * option (list string) * option (list string)) (s : sim)
  : res sim_result :=
  let r := new_sim_result default (length (m_x m)) (length (m_y m)) (length (m_u m)) names
             t_0 (last t_f t_0) (length t_f) in
  let put_all k pts :=
    fun d => match columns (map snd pts) with
             | Raise e => (d, Raise e)
             | Ok v => insert_data k (TimeRow (map fst pts)) v d
             end in
  match (put_all "x"%string (s_x s) ;;; put_all "y"%string (s_y s) ;;; put_all "u"%string (s_u s))
          (r_data r) with
  | (d, Ok _) => Ok (mkSimResult (r_t_0 r) (r_t_f r) (r_elements r) d)
  | (_, Raise e) => Raise e
  end.

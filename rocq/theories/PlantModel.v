(** Simulated plants (mpc/plant.py, "pl" below). *)
From Coq Require Import String.
From Verif Require Import Base UtilModel ExprModel SysModel SimModel DataModel OcpModel DiscModel.
Local Open Scope list_scope.
Local Open Scope cmd_scope.

(** pl:57-95: the attributes fixed at construction, and the parameters and the noise
    switch, which a user sets afterwards.  [f_theta] None are no values.  The matrix
    [c_matrix] is given by its rows; [d_matrix] is never used (pl:76-77). *)
Record plant_config := mkConfig
  { f_model : model; f_t_0 : Q; f_t_s : Q; f_y_guess : list Q; f_c : list (list Q);
    f_points : list Q; f_noise : bool; f_p : list Q; f_theta : option (dict nat (list Q));
    f_options : options; f_x_names : list string; f_y_names : list string; f_u_names : list string }.

(** The attributes that change.  [a_draws] counts the random vectors drawn. *)
Record plant := mkPlant
  { a_t : Q; a_x : list Q; a_measurement : list Q; a_u : list Q;
    a_function : option (Q -> res (list Q)); a_draws : nat; a_data : dataset }.
Definition set_a_t (t : Q) (s : plant) : plant :=
  mkPlant t (a_x s) (a_measurement s) (a_u s) (a_function s) (a_draws s) (a_data s).
Definition set_a_x (x : list Q) (s : plant) : plant :=
  mkPlant (a_t s) x (a_measurement s) (a_u s) (a_function s) (a_draws s) (a_data s).
Definition set_a_measurement (m : list Q) (s : plant) : plant :=
  mkPlant (a_t s) (a_x s) m (a_u s) (a_function s) (a_draws s) (a_data s).
Definition set_a_u (u : list Q) (s : plant) : plant :=
  mkPlant (a_t s) (a_x s) (a_measurement s) u (a_function s) (a_draws s) (a_data s).
Definition set_a_function (f : option (Q -> res (list Q))) (s : plant) : plant :=
  mkPlant (a_t s) (a_x s) (a_measurement s) (a_u s) f (a_draws s) (a_data s).
Definition set_a_draws (n : nat) (s : plant) : plant :=
  mkPlant (a_t s) (a_x s) (a_measurement s) (a_u s) (a_function s) n (a_data s).
Definition set_a_data (d : dataset) (s : plant) : plant :=
  mkPlant (a_t s) (a_x s) (a_measurement s) (a_u s) (a_function s) (a_draws s) d.

(** pl:91-95: [super_samling] is a number of points or the list of points.  For the
    number 0 no quotient is computed. *)
Inductive sampling := Count (n : nat) | Given (l : list Q).
Definition sampling_points (s : sampling) : list Q :=
  match s with
  | Count n => map (fun i => (1 / q_of_nat n * q_of_nat (i + 1))%Q) (seq 0 n)
  | Given l => l
  end.

(** casadi: the sum of two vectors, one of which may be a number, and the product of
    a matrix, which may be a number, and a vector. *)
Definition dm_add (a b : list Q) : res (list Q) :=
  if (length a =? length b)%nat then Ok (map (fun ab => fst ab + snd ab)%Q (combine a b))
  else match a, b with
       | _, [y] => Ok (map (fun x => x + y)%Q a)
       | [x], _ => Ok (map (fun y => x + y)%Q b)
       | _, _ => Raise CasadiError
       end.
Definition row_product (row v : list Q) : Q :=
  fold_left (fun acc ab => acc + fst ab * snd ab)%Q (combine row v) 0%Q.
Definition dm_product (c : list (list Q)) (v : list Q) : res (list Q) :=
  if forallb (fun row => (length row =? length v)%nat) c then Ok (map (fun row => row_product row v) c)
  else match c with
       | [[a]] => Ok (map (fun x => a * x)%Q v)
       | _ => Raise CasadiError
       end.
(** [DM.eye(n)]. *)
Definition eye (n : nat) : list (list Q) :=
  map (fun i => map (fun j => if (i =? j)%nat then 1%Q else 0%Q) (seq 0 n)) (seq 0 n).

Definition column (v : list Q) : mat := mkMat (length v) [v].
(** [self.dataset.insert_data(k, self.t, v)]. *)
Definition record (k : string) (v : list Q) : cmd plant unit :=
  fun s => match insert_data k (TimeNum (a_t s)) (column v) (a_data s) with
           | (d, r) => (set_a_data d s, r)
           end.

Section Plant.
  Variable default : string -> nat -> string.
  (** casadi's integrators, the configured integrator options, the unary operations. *)
  Variable integrate : icall -> res (list Q * list Q).
  Variable defaults : options.
  Variable F : nat -> Q -> Q.
  (** numpy's random vectors: the k-th draw, for process and measurement noise. *)
  Variables w_x w_m : nat -> list Q.
  Variable c : plant_config.

  (** pl:161-172: [model.simulate(...).final_condition()] (SimModel and DataModel). *)
  Definition simulate_to (x : list Q) (t_0 t_f : Q) (u : list Q) : res (list Q * list Q * list Q) :=
    match simulate integrate defaults F (f_model c) x [t_f] t_0 (UVec u) (f_p c) (f_theta c)
            (Some (f_y_guess c)) "implicit" (f_options c) with
    | Raise e => Raise e
    | Ok s => match result_of default (f_model c) t_0 [t_f]
                      (Some (f_x_names c), Some (f_y_names c), Some (f_u_names c)) s with
              | Raise e => Raise e
              | Ok r => final_condition r
              end
    end.

  (** pl:193-207 [_measure]: with and without noise. *)
  Definition measure (x y : list Q) : cmd plant (list Q * list Q) :=
    clean <~ cres (dm_product (f_c c) (x ++ y)) ;;
    if f_noise c
    then fun s => match dm_add clean (w_m (a_draws s)) with
                  | Raise e => (s, Raise e)
                  | Ok m => (set_a_draws (S (a_draws s)) s, Ok (m, clean))
                  end
    else cret (clean, clean).

  (** pl:209-219 [_save_data] without and with measurements. *)
  Definition save_data (x y u : list Q) : cmd plant unit :=
    record "x" x ;;; record "y" y ;;; record "u" u.
  Definition save_measurement (m : list Q * list Q) : cmd plant unit :=
    record "meas" (fst m) ;;; record "meas_wo_noise" (snd m).

  (** pl:189-191. *)
  Definition process_noise (x : list Q) : cmd plant (list Q) :=
    if f_noise c
    then fun s => match dm_add x (w_x (a_draws s)) with
                  | Raise e => (s, Raise e)
                  | Ok x' => (set_a_draws (S (a_draws s)) s, Ok x')
                  end
    else cret x.

  (** pl:155-179: one round of the loop of [_advance]. *)
  Definition sample (t_start delta_t : Q) : cmd plant (list Q * list Q) :=
    let t_f := (t_start + delta_t * f_t_s c)%Q in
    (fun s => match a_function s with
              | None => (s, Ok tt)
              | Some f => match f (a_t s) with
                          | Raise e => (s, Raise e)
                          | Ok u => (set_a_u u s, Ok tt)
                          end
              end) ;;;
    r <~ (fun s => (s, simulate_to (a_x s) (a_t s) t_f (a_u s))) ;;
    x <~ process_noise (fst (fst r)) ;;
    cmodify (set_a_t t_f) ;;;
    cmodify (set_a_x x) ;;;
    save_data x (snd (fst r)) (snd r) ;;;
    cret (x, snd (fst r)).
  (** The loop; the variables x and y of the last round are used after it. *)
  Fixpoint samples_from (t_start : Q) (points : list Q) (last : option (list Q * list Q))
    : cmd plant (option (list Q * list Q)) :=
    match points with
    | [] => cret last
    | d :: l => xy <~ sample t_start d ;; samples_from t_start l (Some xy)
    end.
  (** pl:153-187 [_advance]; without sampling points x is not defined. *)
  Definition advance : cmd plant unit :=
    fun s =>
      (xy <~ samples_from (a_t s) (f_points c) None ;;
       match xy with
       | None => craise UnboundLocalError
       | Some (x, y) =>
           m <~ measure x y ;;
           save_measurement m ;;;
           cmodify (set_a_measurement (fst m))
       end) s.

  (** pl:119-127 and 129-151.  Lists and numbers are converted to vectors (pl:135-136). *)
  Definition set_control_function (f : Q -> res (list Q)) : cmd plant unit :=
    cmodify (set_a_function (Some f)) ;;; advance.
  Definition set_control (u : list Q) : cmd plant unit :=
    cguard (fun _ => negb (length u =? length (m_u_par (f_model c)))%nat) ValueError ;;;
    cmodify (set_a_u u) ;;;
    advance.
  (** pl:109-117 [get_measurement]. *)
  Definition get_measurement (s : plant) : Q * list Q * list Q := (a_t s, a_measurement s, a_u s).

  (** pl:221-247 [_initialize_dataset]. *)
  Definition initialize_dataset : cmd dataset unit :=
    let n := length (m_x (f_model c)) in
    create_entry default "x" (Some n) (Some (f_x_names c)) "plot" ;;;
    create_entry default "y" (Some (length (m_y (f_model c)))) (Some (f_y_names c)) "plot" ;;;
    create_entry default "u" (Some (length (m_u (f_model c)))) (Some (f_u_names c)) "step" ;;;
    create_entry default "meas_wo_noise" (Some n) (Some (map (default "meas_wo_noise"%string) (seq 0 n))) "plot" ;;;
    create_entry default "meas" (Some n) (Some (map (default "meas"%string) (seq 0 n))) "plot".
  (** pl:31-107 [__init__].  At construction there is no noise (pl:83). *)
  Definition new_plant (x_0 : list Q) (u_0 : option (list Q)) (f : option (Q -> res (list Q))) : res plant :=
    let u := match u_0 with Some u => u | None => repeat 0%Q (length (m_u (f_model c))) end in
    match initialize_dataset [] with
    | (_, Raise e) => Raise e
    | (d, Ok _) =>
        match dm_product (f_c c) (x_0 ++ f_y_guess c) with
        | Raise e => Raise e
        | Ok m =>
            match (save_data x_0 (f_y_guess c) u ;;; save_measurement (m, m))
                    (mkPlant (f_t_0 c) x_0 x_0 u f 0 d) with
            | (s, Ok _) => Ok s
            | (_, Raise e) => Raise e
            end
        end
    end.

  Inductive plant_op := SetControl (u : list Q) | SetFunction (f : Q -> res (list Q)).
  Definition plant_step (op : plant_op) : cmd plant unit :=
    match op with SetControl u => set_control u | SetFunction f => set_control_function f end.
End Plant.

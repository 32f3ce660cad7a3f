(** Specification vocabulary for the values of a trajectory at times chosen by the caller,
    when the method is multiple shooting. *)
From Coq Require Import String Sorting.Sorted SetoidList.
From Verif Require Import Base ExprModel NlpModel SysModel SysSpec SimModel OcpModel LagModel DiscModel
  ColSpec ShoModel ShoSpec.
Local Open Scope list_scope.

(** What the symbols passed by the caller stand for: the states at the beginning of the
    elements, the control parameters and the parameters. *)
Record stands_for (F : nat -> Q -> Q) (k : method) (env : sym -> Q) (x u : list (list (list sym))) (p : list expr)
    (thetas : list (list expr)) (h : shooting) : Prop := mkStandsFor
  { sf_x : forall el l v, nth_error x el = Some l -> nth_error l 0 = Some v -> h_x h el = map env v;
    sf_u : forall el l, nth_error u el = Some l -> h_u h el = map env (concat l);
    sf_p : h_p h = map (eval F env) p;
    sf_theta : forall el l, nth_error thetas el = Some l -> h_theta h el = map (eval F env) l }.
(** Values of the right size. *)
Record well_sized (k : method) (h : shooting) : Prop := mkWellSized
  { ws_x : forall el, length (h_x h el) = length (m_x (k_model k));
    ws_y : forall el, length (h_y h el) = length (m_y (k_model k));
    ws_u : forall el, length (h_u h el) = length (m_u_par (k_model k));
    ws_p : length (h_p h) = length (m_p (k_model k));
    ws_theta : forall el, length (h_theta h el) = length (m_theta (k_model k));
    ws_x0 : length (h_x0 h) = length (m_x_0 (k_model k));
    ws_eta : length (h_eta h) = length (o_eta (k_problem k)) }.

(** A time is among those of a list. *)
Definition among (ts : option (list Q)) (t : Q) : bool :=
  match ts with Some l => existsb (Qeq_bool t) l | None => false end.
(** The values that belong to the wanted times. *)
Definition selected {A : Type} (wanted : option (list Q)) (ts : list Q) (vs : list A) : list A :=
  map snd (filter (fun tv => among wanted (fst tv)) (combine ts vs)).

Section Given.
  Variables (F : nat -> Q -> Q) (integrate : icall -> res (list Q * list Q)) (defaults : options)
    (ty : string) (label : nat -> nat -> string) (k : method) (h : shooting) (el : nat).
  Let m : model := k_model k.

  (** The simulation of the system of an element from the states [x_0] at the time [t_0] to
      the time [t], the [i]-th one of the element. *)
  Definition run_to (i : nat) (t_0 : Q) (x_0 : list Q) (t : Q) : res (list Q * list Q) :=
    dae_simulate integrate defaults (element_system k el) x_0 t t_0 (h_p h ++ h_theta h el ++ h_u h el)
      (o_y_guess (k_problem k)) ty [("name"%string, OptStr (label el i))].

  (** States and algebraic variables at increasing times.  Every simulation begins at the
      beginning of the element, when the caller wants that, or where the one before ended. *)
  Fixpoint course (from_start : bool) (i : nat) (t_0 : Q) (x_0 : list Q) (ts : list Q)
      (vs : list (list Q * list Q)) : Prop :=
    match ts, vs with
    | [], [] => True
    | t :: ts', v :: vs' =>
        run_to i t_0 x_0 t = Ok v /\
        course from_start (S i) (if from_start then t_0 else t) (if from_start then x_0 else fst v) ts' vs'
    | _, _ => False
    end.

  (** The relative time in an interval. *)
  Definition relative (a b t : Q) : Q := ((t - a) / (b - a))%Q.
  (** The values of expressions of the model during the element. *)
  Definition during (a b : Q) (es : list expr) (tv : Q * (list Q * list Q)) : list Q :=
    map (eval F (point_of k h el (fst tv) (relative a b (fst tv)) (fst (snd tv)) (snd (snd tv)))) es.

  Definition close (l l' : list (list Q)) : Prop := Forall2 (Forall2 Qeq) l l'.

  (** The values [z] are those that [w] asks for, with [groups] the expressions of the
      functions to evaluate. *)
  Record given_values (from_start : bool) (groups : list (list expr)) (w : demand)
      (x y u : list (list Q)) (f : list (list (list Q))) : Prop := mkGiven
    { gv_is : exists ts vs,
        (* the times: those asked for, increasing, without the beginning *)
        Sorted Qlt ts /\
        (forall t, InA Qeq t ts <->
           ~ (t == wd_t0 w)%Q /\
           (among (wd_x w) t = true \/ among (wd_y w) t = true \/ among (wd_u w) t = true \/
            exists l, In l (wd_f w) /\ among l t = true)) /\
        course from_start 0 (wd_t0 w) (h_x h el) ts vs /\
        x = (if among (wd_x w) (wd_t0 w) then [h_x h el] else []) ++ selected (wd_x w) ts (map fst vs) /\
        y = selected (wd_y w) ts (map snd vs) /\
        close u ((if among (wd_u w) (wd_t0 w)
                  then [during (wd_t0 w) (wd_tf w) (m_u_expr m) (wd_t0 w, (h_x h el, h_y h el))] else []) ++
                 selected (wd_u w) ts (map (during (wd_t0 w) (wd_tf w) (m_u_expr m)) (combine ts vs))) /\
        length f = length groups /\
        forall j es l, nth_error groups j = Some es -> nth_error (wd_f w) j = Some l ->
          exists v, nth_error f j = Some v /\
            close v (selected l ts (map (during (boundary k el) (boundary k (S el)) es) (combine ts vs))) }.

  (** Simulations can be put together: two in a row arrive where one does. *)
  Definition composes : Prop :=
    forall i j t_0 x_0 t t' v v', ~ (t' == t_0)%Q ->
      run_to i t_0 x_0 t = Ok v -> run_to j t (fst v) t' = Ok v' -> run_to j t_0 x_0 t' = Ok v'.
End Given.

(** The values of the results at a point. *)
Definition valued (F : nat -> Q -> Q) (env : sym -> Q) (l : list (list expr)) : list (list Q) := map (map (eval F env)) l.

(** ** An example: two elements from 0 to 5 and from 5 to 10. *)

(** An integrator that adds 1 to the first state, whatever the system. *)
Definition counting (c : icall) : res (list Q * list Q) :=
  Ok (match ic_x0 c with a :: l => (a + 1)%Q :: l | [] => [] end, [2%Q]).
Definition cart_values : shooting :=
  mkShooting (fun el => if (el =? 0)%nat then [1%Q; 0%Q; 0%Q] else [7%Q; 1%Q; 0%Q]) (fun _ => [2%Q])
    (fun _ => [(1 # 2)%Q]) [1%Q; 0%Q] (fun _ => [1%Q; 1%Q]) [] [1%Q; 0%Q; 0%Q] [0%Q].
Definition cart_points : demand :=
  mkDemand 5%Q 10%Q (Some [7%Q; 5%Q; 10%Q]) (Some [6%Q]) (Some [5%Q; 7%Q]) [Some [10%Q; 6%Q]].
Definition cart_x : list (list (list sym)) := [[[800; 801; 802]]; [[810; 811; 812]]]%nat.
Definition cart_u : list (list (list sym)) := [[[830]]; [[831]]]%nat.
Definition cart_p : list expr := [EConst 1%Q; EConst 0%Q].
Definition cart_thetas : list (list expr) := [[EConst 1%Q; EConst 1%Q]; [EConst 1%Q; EConst 1%Q]].
Definition cart_group : list expr := [EBin OAdd (EVar 10) (EVar 20)].
(** The values of these symbols and of those from 1000 on. *)
Definition cart_env (later : list Q) (v : sym) : Q :=
  if (1000 <=? v)%nat then nth (v - 1000) later 0%Q
  else assign (fun _ => 0%Q) [800; 801; 802; 810; 811; 812; 830; 831]%nat [1; 0; 0; 7; 1; 0; 1 # 2; 1 # 2]%Q v.
Definition cart_later (from_start : bool) : list Q :=
  if from_start then [8; 1; 0; 2; 8; 1; 0; 2; 8; 1; 0; 2]%Q else [8; 1; 0; 2; 9; 1; 0; 2; 10; 1; 0; 2]%Q.

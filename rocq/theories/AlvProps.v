(** Property theorems C85: finding algebraic variables and including variables. *)
From Verif Require Import Base UtilModel ExprModel SysModel SysSpec AlvModel AlvSpec AlvProofs.
Local Open Scope list_scope.

(** What is found solves the algebraic equations at the time, states, controls and parameters
    given, if the root finder returns roots. *)
Theorem C85_consistent : forall root F m x u guess t p theta y,
    (forall unknowns eqs g r env,
       root unknowns eqs g = Ok r -> length r = length unknowns /\
       forall e, In e eqs -> (eval F (assign env unknowns r) e == 0)%Q) ->
    length x = length (m_x m) -> length u = length (m_u m) ->
    length (of_option p) = length (m_p m) -> length (of_option theta) = length (m_theta m) ->
    find_algebraic_variable root m x u guess t p theta = Ok y ->
    length y = length (m_y m) /\
    forall env e, In e (m_alg m) ->
      (eval F (assign env (m_t m :: m_x m ++ m_u m ++ m_p m ++ m_theta m ++ m_y m)
                          (t :: x ++ u ++ of_option p ++ of_option theta ++ y)) e == 0)%Q.
Proof. exact find_ok. Qed.
Print Assumptions C85_consistent.

(** With values of the proper sizes and equations about the variables of the model only, the
    call asks the root finder for the algebraic variables, from the guess, which is one for
    every variable if none is given; its equations are those of the model with the values
    put in. *)
Theorem C85_called : forall root m x u guess t p theta,
    length x = length (m_x m) -> length u = length (m_u m) ->
    length (of_option p) = length (m_p m) -> length (of_option theta) = length (m_theta m) ->
    (forall e s, In e (m_alg m) -> mentions e s ->
       In s (m_t m :: m_x m ++ m_u m ++ m_p m ++ m_theta m ++ m_y m)) ->
    exists eqs,
      find_algebraic_variable root m x u guess t p theta =
        root (m_y m) eqs (match guess with Some g => g | None => map (fun _ => 1%Q) (m_y m) end) /\
      forall F env, map (eval F env) eqs =
        map (eval F (assign env (m_t m :: m_x m ++ m_u m ++ m_p m ++ m_theta m)
                                (t :: x ++ u ++ of_option p ++ of_option theta))) (m_alg m).
Proof. exact find_called. Qed.
Print Assumptions C85_called.

(** Values of a wrong total size are refused. *)
Theorem C85_total_size : forall root m x u guess t p theta,
    (length x + length u + length (of_option p) + length (of_option theta) <>
      length (m_x m) + length (m_u m) + length (m_p m) + length (m_theta m))%nat ->
    x ++ u ++ of_option p ++ of_option theta <> [] ->
    find_algebraic_variable root m x u guess t p theta = Raise CasadiError.
Proof. exact find_sizes. Qed.
Print Assumptions C85_total_size.

(** Refuted: values that do not fit are refused.  If nothing but the time is given, the time
    is taken for every state, control and parameter. *)
Theorem C85_time_only_refuted : forall root m guess t,
    find_algebraic_variable root m [] [] guess t None None =
    find_algebraic_variable root m (repeat t (length (m_x m))) (repeat t (length (m_u m))) guess t
      (Some (repeat t (length (m_p m)))) (Some (repeat t (length (m_theta m)))).
Proof. exact find_time_only. Qed.
Print Assumptions C85_time_only_refuted.

(** Refuted: the sizes of states and of controls are compared.  Here the second state is taken
    for the control. *)
Theorem C85_sizes_refuted : forall root m a b guess t,
    find_algebraic_variable root m [a; b] [] guess t None None =
    find_algebraic_variable root m [a] [b] guess t None None.
Proof. exact (fun root m a b guess t => eq_refl). Qed.
Print Assumptions C85_sizes_refuted.

(** Refuted: algebraic variables can be found for every model.  An equation that mentions
    anything else, such as the parameter of a parametrised control or tau, makes the call
    fail, whatever is given. *)
Theorem C85_parametrized_refuted : forall root m x u guess t p theta s e,
    In e (m_alg m) -> mentions e s -> ~ In s (m_t m :: m_x m ++ m_u m ++ m_p m ++ m_theta m ++ m_y m) ->
    find_algebraic_variable root m x u guess t p theta = Raise CasadiError.
Proof. exact find_free. Qed.
Print Assumptions C85_parametrized_refuted.

(** Including variables of several kinds at once appends each to the vectors of its kind, in
    the order given, and adds no equation. *)
Theorem C85_include_variables : forall x y u p theta x_0 m,
    (forall a, In a [x; y; u; p; theta] -> a <> Some (Several [])) ->
    (x <> None -> all_of x <> []) -> (x = None -> x_0 = []) -> NoDup (all_of x) ->
    (forall s, In s (all_of x) -> ~ In s (dkeys (m_ode m))) ->
    exists m', include_variables x y u p theta x_0 m = (m', Ok tt) /\
      m_x m' = m_x m ++ all_of x /\ m_x_0 m' = m_x_0 m ++ x_0 /\
      m_ode m' = m_ode m ++ map (fun s => (s, None)) (all_of x) /\
      m_y m' = m_y m ++ all_of y /\ m_u m' = m_u m ++ all_of u /\ m_u_par m' = m_u_par m ++ all_of u /\
      m_u_expr m' = m_u_expr m ++ map EVar (all_of u) /\ m_p m' = m_p m ++ all_of p /\
      m_theta m' = m_theta m ++ all_of theta /\ m_alg m' = m_alg m /\ ode m' = ode m /\
      m_parametrized m' = m_parametrized m /\ m_t m' = m_t m /\ m_tau m' = m_tau m.
Proof. exact include_variables_ok. Qed.
Print Assumptions C85_include_variables.

(** y = 2 x + u, found at x = 3 and u = 1 by a root finder that knows equations of this form. *)
Definition mixer : model :=
  set_alg [EBin OSub (EVar 20) (EBin OAdd (EBin OMul (EConst 2) (EVar 10)) (EVar 30))]
    (set_y [20] (set_u [30] (set_u_par [30] (set_u_expr [EVar 30] (set_x [10] (new_model 1 2)))))).
Definition linear_root (unknowns : list sym) (eqs : list expr) (g : list Q) : res (list Q) :=
  match unknowns, eqs with
  | [20], [EBin OSub (EVar 20) (EBin OAdd (EBin OMul (EConst a) (EConst b)) (EConst c))] => Ok [a * b + c]%Q
  | _, _ => Raise CasadiError
  end.
Example mixer_found : find_algebraic_variable linear_root mixer [3%Q] [1%Q] None 0%Q None None = Ok [7%Q].
Proof. reflexivity. Qed.
(** The equation of the mixer mentions its variables only. *)
Example mixer_called : forall e s, In e (m_alg mixer) -> mentions e s ->
  In s (m_t mixer :: m_x mixer ++ m_u mixer ++ m_p mixer ++ m_theta mixer ++ m_y mixer).
Proof. intros e s [<-|[]] M. cbn in *. tauto. Qed.
(** The same with a control that has become a parameter. *)
Example mixer_parametrized :
  exists m, parametrize_control [30] [EVar 40] (Some [40]) mixer = (m, Ok tt) /\
    (exists e, In e (m_alg m) /\ mentions e 40) /\
    ~ In 40 (m_t m :: m_x m ++ m_u m ++ m_p m ++ m_theta m ++ m_y m) /\
    find_algebraic_variable linear_root m [3%Q] [1%Q] None 0%Q None None = Raise CasadiError.
Proof.
  eexists. split; [reflexivity|]. split.
  - eexists. split; [left; reflexivity|]. cbn. tauto.
  - split; [cbn; intuition discriminate|reflexivity].
Qed.
Example mixer_extended :
  exists m, include_variables (Some (Several [[11]; [12; 13]])) None (Some (Vec [31])) None None [14; 15; 16] mixer = (m, Ok tt) /\
    m_x m = [10; 11; 12; 13] /\ m_u m = [30; 31].
Proof. eexists. split; [reflexivity|]. split; reflexivity. Qed.

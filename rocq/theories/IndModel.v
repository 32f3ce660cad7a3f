(** Model of the indirect method: adjoint states (yaocptool/modelling/ocp.py) and
    yaocptool/methods/classic/indirectmethod.py. *)
From Coq Require Import String.
From Verif Require Import Base ExprModel NlpModel SysModel OcpModel DiscModel.
Local Open Scope list_scope.
Local Open Scope cmd_scope.

(** ** Adjoint states *)

(** casadi [gradient(e, v)] of a scalar. *)
Definition gradient (dfun : nat -> expr -> expr) (e : expr) (v : list sym) : list expr :=
  map (fun s => diff dfun s e) v.
(** casadi [dot(a, b)], which refuses vectors of different sizes. *)
Definition dot_exprs (a b : list expr) : res expr :=
  if (length a =? length b)%nat
  then Ok (esum (map (fun ab => EBin OMul (fst ab) (snd ab)) (combine a b)))
  else Raise CasadiError.
(** Unary minus. *)
Definition neg (e : expr) : expr := EBin OSub (EConst 0%Q) e.

(** system_model.py:86-97 [x_sys_sym] and [lamb_sym]. *)
Definition x_sys_sym (m : model) : list sym :=
  if m_adjoint m then firstn (length (m_x m) / 2) (m_x m) else m_x m.
Definition lamb_sym (m : model) : list sym :=
  if m_adjoint m then skipn (length (m_x m) / 2) (m_x m) else [].

(** ocp.py:271: the Hamiltonian.  [L] is a vector of one element after
    [pre_solve_check]; other sizes are refused here. *)
Definition hamiltonian (lamb nu : list sym) (o : ocp) : res expr :=
  match o_L o with
  | [l] =>
      match dot_exprs (map EVar lamb) (ode (o_model o)) with
      | Raise e => Raise e
      | Ok a => match dot_exprs (map EVar nu) (m_alg (o_model o)) with
                | Raise e => Raise e
                | Ok b => Ok (EBin OAdd (EBin OAdd l a) b)
                end
      end
  | _ => Raise CasadiError
  end.

(** ocp.py:282-285: the conditions at the final time, for the states [xs] of the system
    and the adjoint states [ls].  [V] must be a scalar for [gradient]. *)
Definition transversality (dfun : nat -> expr -> expr) (xs ls eta : list sym)
    (V h_final : list expr) : res (list expr) :=
  match V with
  | [v] =>
      if (length ls =? length xs)%nat && (length eta =? length h_final)%nat
      then Ok (map (fun sl =>
             EBin OSub (EBin OSub (EVar (snd sl)) (diff dfun (fst sl) v))
                       (esum (map (fun he => EBin OMul (diff dfun (fst sl) (fst he)) (EVar (snd he)))
                                  (combine h_final eta))))
             (combine xs ls))
      else Raise CasadiError
  | _ => Raise CasadiError
  end.

(** The method: its problem, the Hamiltonian stored in the problem ([SX(0)] at first,
    ocp.py:119), and its own attributes. *)
Record indirect := mkIndirect
  { i_problem : ocp; i_H : expr; i_degree : nat; i_elements : nat;
    i_create_cost : bool; i_has_cost : bool; i_prepared : bool }.
Definition set_i_problem v k := mkIndirect v (i_H k) (i_degree k) (i_elements k)
  (i_create_cost k) (i_has_cost k) (i_prepared k).
Definition set_i_H v k := mkIndirect (i_problem k) v (i_degree k) (i_elements k)
  (i_create_cost k) (i_has_cost k) (i_prepared k).
Definition set_i_has_cost v k := mkIndirect (i_problem k) (i_H k) (i_degree k) (i_elements k)
  (i_create_cost k) v (i_prepared k).
Definition set_i_prepared v k := mkIndirect (i_problem k) (i_H k) (i_degree k) (i_elements k)
  (i_create_cost k) (i_has_cost k) v.
Definition i_model (k : indirect) : model := o_model (i_problem k).
(** A command on the problem of the method. *)
Definition on_problem (c : cmd ocp unit) : cmd indirect unit :=
  fun k => match c (i_problem k) with (o, r) => (set_i_problem o k, r) end.

(** The symbols created by one preparation: [lamb], its initial conditions, [nu], [eta],
    and the cost state with its initial condition. *)
Record created := mkCreated
  { n_lamb : list sym; n_lamb_0 : list sym; n_nu : list sym; n_eta : list sym;
    n_cost : sym; n_cost_0 : sym }.

(** ocp.py:266-286 [create_adjoint_states]. *)
Definition create_adjoint_states (dfun : nat -> expr -> expr) (n : created) : cmd indirect unit :=
  let lamb := n_lamb n in
  let nu := n_nu n in
  on_problem (cmodify (set_o_eta (n_eta n))) ;;;
  fun k =>
    match hamiltonian lamb nu (i_problem k) with
    | Raise e => (k, Raise e)
    | Ok H =>
        let l_dot := map neg (gradient dfun H (m_x (i_model k))) in
        let alg_eq := gradient dfun H (m_y (i_model k)) in
        (cmodify (set_i_H H) ;;;
         on_problem (ocp_include_state lamb (Some l_dot) None BNone BNone None (n_lamb_0 n) true) ;;;
         on_problem (on_model (cmodify (set_adjoint true))) ;;;
         on_problem (ocp_include_algebraic nu (Some alg_eq) None None None) ;;;
         on_problem (cset (fun o => match transversality dfun (x_sys_sym (o_model o))
                                            (lamb_sym (o_model o)) (o_eta o) (o_V o) (o_h_final o) with
                                    | Ok h => Ok (o_h_final o ++ h)
                                    | Raise e => Raise e
                                    end) set_o_h_final)) k
    end.

(** ** Construction *)

(** indirectmethod.py:59-81: [v[i] = value] for the indices of a vector that must have
    them. *)
Definition write_at {A : Type} (i : nat) (a : A) (l : list A) : res (list A) :=
  if (i <? length l)%nat then Ok (firstn i l ++ a :: skipn (S i) l) else Raise CasadiError.
Fixpoint free_bounds (lo hi : ocp -> list ext) (set_lo set_hi : list ext -> ocp -> ocp)
    (idx : list nat) : cmd ocp unit :=
  match idx with
  | [] => cret tt
  | i :: idx' =>
      cset (fun o => write_at i NInf (lo o)) set_lo ;;;
      cset (fun o => write_at i PInf (hi o)) set_hi ;;;
      free_bounds lo hi set_lo set_hi idx'
  end.
(** indirectmethod.py:59-81 [_check_bounds]; the warnings are not modelled, and a bound
    that is infinite already is written again with the same value. *)
Definition check_bounds : cmd ocp unit :=
  (fun o => free_bounds o_x_min o_x_max set_o_x_min set_o_x_max (seq 0 (length (m_x (o_model o)))) o) ;;;
  (fun o => free_bounds o_y_min o_y_max set_o_y_min set_o_y_max (seq 0 (length (m_y (o_model o)))) o).

(** indirectmethod.py:16-46 [__init__] with the setter of [degree_control]: the keyword
    arguments are assigned one by one (solutionmethodsbase.py:78-79), and assigning
    [degree_control] raises.  The command acts on the caller's problem; the remaining
    options of the base class are not used below. *)
Definition new_indirect (degree elements : nat) (degree_control : option nat) (create_cost : bool)
  : cmd ocp indirect :=
  cguard (fun _ => match degree_control with Some _ => true | None => false end) ValueError ;;;
  check_bounds ;;;
  fun o => (o, Ok (mkIndirect o (EConst 0%Q) degree elements create_cost false false)).
(** indirectmethod.py:37-39: the getter. *)
Definition degree_control (k : indirect) : nat := i_degree k.

(** ** The optimal control *)

(** casadi [hessian(e, v)]: the matrix of second derivatives, by rows. *)
Definition hessian (dfun : nat -> expr -> expr) (e : expr) (v : list sym) : list (list expr) :=
  map (fun s => gradient dfun (diff dfun s e) v) v.
(** casadi [mtimes(M, v)]. *)
Definition times (M : list (list expr)) (v : list expr) : list expr :=
  map (fun row => esum (map (fun ab => EBin OMul (fst ab) (snd ab)) (combine row v))) M.

(** indirectmethod.py:97-102: saturation of one element.  A lower bound of +inf or an
    upper bound of -inf would make the element infinite, which expressions cannot
    represent; the model refuses them. *)
Definition saturate (e : expr) (lo hi : ext) : res expr :=
  match lo, hi with
  | PInf, _ | _, NInf => Raise AnyException
  | NInf, PInf => Ok e
  | NInf, Fin b => Ok (EBin OMin e (EConst b))
  | Fin a, PInf => Ok (EBin OMax e (EConst a))
  | Fin a, Fin b => Ok (EBin OMin (EBin OMax e (EConst a)) (EConst b))
  end.
(** The loop of lines 97-102 over the elements; reading a bound that does not exist
    fails. *)
Fixpoint saturate_all (es : list expr) (lo hi : list ext) : res (list expr) :=
  match es with
  | [] => Ok []
  | e :: es' =>
      match lo, hi with
      | a :: lo', b :: hi' =>
          match saturate e a b with
          | Raise x => Raise x
          | Ok e' => match saturate_all es' lo' hi' with
                     | Raise x => Raise x
                     | Ok l => Ok (e' :: l)
                     end
          end
      | _, _ => Raise CasadiError
      end
  end.

(** indirectmethod.py:83-103 [calculate_optimal_control].  [zero M] is casadi's
    [is_equal] of a matrix of expressions and the zero matrix, and [inverse] its
    symbolic [inv]. *)
Definition calculate_optimal_control (dfun : nat -> expr -> expr)
    (zero : list (list expr) -> bool) (inverse : list (list expr) -> res (list (list expr)))
    (k : indirect) : res (list expr) :=
  let u := m_u (i_model k) in
  let dd := hessian dfun (i_H k) u in
  if zero dd then Raise AnyException
  else match inverse dd with
       | Raise e => Raise e
       | Ok M =>
           let g := subst_vec (gradient dfun (i_H k) u) u (map (fun _ => EConst 0%Q) u) in
           saturate_all (map neg (times M g)) (o_u_min (i_problem k)) (o_u_max (i_problem k))
       end.

(** indirectmethod.py:105-106 [replace_with_optimal_control]. *)
Definition replace_with_optimal_control (u_opt : list expr) : cmd indirect unit :=
  fun k => on_problem (ocp_parametrize_control (m_u (i_model k)) u_opt None) k.

(** indirectmethod.py:48-57 [prepare] with solutionmethodsbase.py:236-243. *)
Definition indirect_prepare (dfun : nat -> expr -> expr) (zero : list (list expr) -> bool)
    (inverse : list (list expr) -> res (list (list expr))) (n : created) : cmd indirect unit :=
  (fun k => if i_prepared k then (k, Ok tt) else (k, pre_solve_check (i_problem k))) ;;;
  create_adjoint_states dfun n ;;;
  (fun k => if i_create_cost k
            then (cmodify (set_i_has_cost true) ;;;
                  on_problem (create_cost_state (n_cost n) (n_cost_0 n))) k
            else (k, Ok tt)) ;;;
  fun k => match calculate_optimal_control dfun zero inverse k with
           | Raise e => (k, Raise e)
           | Ok u_opt => replace_with_optimal_control u_opt k
           end.

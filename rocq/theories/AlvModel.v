(** Model of yaocptool/modelling/mixins/algebraic_mixin.py:42-74 [find_algebraic_variable]
    and of yaocptool/modelling/system_model.py:232-272 [include_variables]. *)
From Verif Require Import Base UtilModel ExprModel SysModel.
Local Open Scope list_scope.
Local Open Scope cmd_scope.

(** casadi [substitute] with a vector of numbers: the sizes agree, or one number stands for
    all. *)
Definition substitute_numbers (es : list expr) (v : list sym) (q : list Q) : res (list expr) :=
  if (length v =? length q)%nat then Ok (subst_vec es v (map EConst q))
  else match q with
       | [a] => Ok (subst_vec es v (repeat (EConst a) (length v)))
       | _ => Raise CasadiError
       end.

(** algebraic_mixin.py:42-74.  The root finder is external; casadi refuses a function whose
    expressions mention symbols that are not among its inputs.  The options of the root
    finder are not modelled. *)
Definition find_algebraic_variable (root : list sym -> list expr -> list Q -> res (list Q)) (m : model)
    (x u : list Q) (guess : option (list Q)) (t : Q) (p theta : option (list Q)) : res (list Q) :=
  let given a := match a with Some v => v | None => [] end in
  let g := match guess with Some g => g | None => repeat 1%Q (length (m_y m)) end in
  let known := m_t m :: m_x m ++ m_u m ++ m_p m ++ m_theta m in
  let values := t :: x ++ u ++ given p ++ given theta in
  match substitute_numbers (m_alg m) known values with
  | Raise e => Raise e
  | Ok alg =>
      if existsb (fun s => negb (memb sym_eqb s (m_y m))) (flat_map symbols alg) then Raise CasadiError
      else root (m_y m) alg g
  end.

(** An argument of [include_variables]: a vector, or a list of vectors. *)
Inductive vars := Vec (v : list sym) | Several (l : list (list sym)).
Definition vec_of (a : vars) : res (list sym) :=
  match a with Vec v => Ok v | Several [] => Raise NotImplementedErr | Several l => Ok (concat l) end.

Definition given_vars (a : option vars) (f : list sym -> cmd model unit) : cmd model unit :=
  match a with
  | None => cret tt
  | Some a => match vec_of a with Raise e => craise e | Ok v => f v end
  end.

(** system_model.py:232-272; [x_0] are the symbols created for the initial states
    (continuous_states_mixin.py:61-62, which fails without a state). *)
Definition include_variables (x y u p theta : option vars) (x_0 : list sym) : cmd model unit :=
  given_vars x (fun v => match v with [] => craise NotImplementedErr | _ => include_state v None x_0 end) ;;;
  given_vars y (fun v => include_algebraic v None) ;;;
  given_vars u include_control ;;;
  given_vars p include_parameter ;;;
  given_vars theta include_theta.

(** Model of the sharing between models, copies and problems:
    yaocptool/modelling/system_model.py (below: sys), mixins/continuous_states_mixin.py
    (csm), mixins/control_mixin.py (ctl) and modelling/ocp.py (ocp).  What the methods do to
    the attributes of one model is in SysModel and OcpModel.  Here the two attributes that
    are mutable Python objects, the dictionary [_ode] and the list
    [_parametrized_controls], have places, and a copy of a model may share them.  The other
    attributes are casadi vectors, which every method replaces. *)
From Verif Require Import Base UtilModel ExprModel SysModel OcpModel.
Local Open Scope list_scope.
Local Open Scope cmd_scope.

Definition equations : Type := dict sym (option expr).

(** A model as an object: its attributes, where the equations and the parametrised
    controls of the record are not used, and the places of these two. *)
Record handle := mkHandle { h_rest : model; h_dict : nat; h_list : nat }.
(** A problem (ocp:85-86): the number of the model of the user, [_model], the number of the
    working model, [model], and the other attributes. *)
Record prob := mkProb { p_user : nat; p_model : nat; p_rest : ocp }.
Record world := mkWorld
  { w_dicts : list equations; w_lists : list (list sym); w_models : list handle; w_probs : list prob }.

Definition set_dicts d w := mkWorld d (w_lists w) (w_models w) (w_probs w).
Definition set_models m w := mkWorld (w_dicts w) (w_lists w) m (w_probs w).
Definition set_probs p w := mkWorld (w_dicts w) (w_lists w) (w_models w) p.

(** Before any model is created. *)
Definition nothing : world := mkWorld [] [] [] [].

Definition put_at {A : Type} (i : nat) (a : A) (l : list A) : list A := firstn i l ++ a :: skipn (S i) l.
Definition lookup {A : Type} (l : world -> list A) (i : nat) : cmd world A :=
  fun w => match nth_error (l w) i with Some a => (w, Ok a) | None => (w, Raise IndexError) end.

(** The attributes of a model, read through the places. *)
Definition load (w : world) (h : handle) : model :=
  set_parametrized (nth (h_list h) (w_lists w) []) (set_ode (nth (h_dict h) (w_dicts w) []) (h_rest h)).

(** sys:62-71, csm:18, ctl:18: a new model has a dictionary and a list of its own. *)
Definition add_model (m : model) : cmd world nat :=
  fun w => (mkWorld (w_dicts w ++ [m_ode m]) (w_lists w ++ [m_parametrized m])
                    (w_models w ++ [mkHandle m (length (w_dicts w)) (length (w_lists w))]) (w_probs w),
            Ok (length (w_models w))).

(** sys:468-478 [get_copy]: copy.copy copies the references to all attributes, the list
    among them; line 477 makes a new dictionary. *)
Definition get_copy (i : nat) : cmd world nat :=
  h <~ lookup w_models i ;;
  fun w => (mkWorld (w_dicts w ++ [nth (h_dict h) (w_dicts w) []]) (w_lists w)
                    (w_models w ++ [mkHandle (h_rest h) (length (w_dicts w)) (h_list h)]) (w_probs w),
            Ok (length (w_models w))).

Section Calls.
  (** [is_equal] of two expressions. *)
  Variable same : expr -> expr -> bool.
  (** Most methods write into the dictionary (csm:69, 78, 95).  csm:149 makes a new one.
      [rebound c m] is [None] if the method [c], called on [m], only writes into the
      dictionary, and otherwise what it leaves in the one it replaces. *)
  Variable rebound : cmd model unit -> model -> option equations.

  (** Call a method of model [i].  ctl:98-99 make a new list when a control is registered. *)
  Definition on_handle (i : nat) (c : cmd model unit) : cmd world unit :=
    h <~ lookup w_models i ;;
    fun w =>
      match c (load w h) with
      | (m, r) =>
          let dicts := match rebound c (load w h) with
                       | None => put_at (h_dict h) (m_ode m) (w_dicts w)
                       | Some old => put_at (h_dict h) old (w_dicts w) ++ [m_ode m]
                       end in
          let d := match rebound c (load w h) with None => h_dict h | Some _ => length (w_dicts w) end in
          let keep := if list_eq_dec Nat.eq_dec (m_parametrized m) (m_parametrized (load w h))
                      then true else false in
          let lists := if keep then w_lists w else w_lists w ++ [m_parametrized m] in
          let l := if keep then h_list h else length (w_lists w) in
          (mkWorld dicts lists (put_at i (mkHandle m d l) (w_models w)) (w_probs w), r)
      end.

  (** Call a method of problem [k]; it works on the other attributes and on the working
      model. *)
  Definition on_prob (k : nat) (c : cmd ocp unit) : cmd world unit :=
    p <~ lookup w_probs k ;;
    h <~ lookup w_models (p_model p) ;;
    fun w =>
      let o := set_o_model (load w h) (p_rest p) in
      let w' := set_probs (put_at k (mkProb (p_user p) (p_model p) (fst (c o))) (w_probs w)) w in
      on_handle (p_model p) (fun _ => (o_model (fst (c o)), snd (c o))) w'.

  (** ocp:65-125 [__init__], without the keywords that set attributes. *)
  Definition new_problem (i : nat) (x_0 : option (list Q)) (t_0 t_f : Q) : cmd world unit :=
    j <~ get_copy i ;;
    h <~ lookup w_models j ;;
    fun w => match new_ocp (load w h) x_0 t_0 t_f with
             | Raise e => (w, Raise e)
             | Ok o => (set_probs (w_probs w ++ [mkProb i j o]) w, Ok tt)
             end.

  (** ocp:765-766 [reset_working_model]. *)
  Definition reset_working_model (k : nat) : cmd world unit :=
    p <~ lookup w_probs k ;;
    j <~ get_copy (p_user p) ;;
    fun w => (set_probs (put_at k (mkProb (p_user p) j (p_rest p)) (w_probs w)) w, Ok tt).

  (** The calls of a user.  Models and problems have the numbers in which they were made;
      the working models of problems are models too. *)
  Inductive call :=
  | CNew (t tau : sym)
  | CCopy (i : nat)
  | CDeepCopy (i : nat) (f : fresh)
  | CModel (i : nat) (o : model_op)
  | CInclude (i : nat) (others : list nat)
  | CProblem (i : nat) (x_0 : option (list Q)) (t_0 t_f : Q)
  | CEdit (k : nat) (o : ocp_op)
  | CMerge (k : nat) (others : list nat)
  | CReset (k : nat).

  Definition step (c : call) : cmd world unit :=
    match c with
    | CNew t tau => add_model (new_model t tau) ;;; cret tt
    | CCopy i => get_copy i ;;; cret tt
    (** sys:480-547 *)
    | CDeepCopy i f =>
        h <~ lookup w_models i ;;
        fun w => match get_deepcopy f (load w h) with
                 | Raise e => (w, Raise e)
                 | Ok m => (add_model m ;;; cret tt) w
                 end
    | CModel i o => on_handle i (model_step same o)
    (** sys:368-390: the other models are read one after the other *)
    | CInclude i others =>
        run_all (fun j => h <~ lookup w_models j ;; fun w => on_handle i (include_model (load w h)) w) others
    | CProblem i x_0 t_0 t_f => new_problem i x_0 t_0 t_f
    | CEdit k o => on_prob k (ocp_step same o)
    (** ocp:810-900: the other problems are read one after the other *)
    | CMerge k others =>
        run_all (fun j =>
          q <~ lookup w_probs j ;; h <~ lookup w_models (p_model q) ;;
          fun w => on_prob k (merge_problem (set_o_model (load w h) (p_rest q))) w) others
    | CReset k => reset_working_model k
    end.

  (** A call that fails leaves what it has done so far, and the user may go on. *)
  Fixpoint history (calls : list call) (w : world) : world :=
    match calls with [] => w | c :: rest => history rest (fst (step c w)) end.
End Calls.

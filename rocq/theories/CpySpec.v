(** Specification of copies: every model and every problem is a value of its own.  The calls
    of the user are those of the model. *)
From Verif Require Import Base ExprModel SysModel OcpModel CpyModel.
Local Open Scope list_scope.

(** Model [i] as the user sees it. *)
Definition model_at (w : world) (i : nat) : option model :=
  match nth_error (w_models w) i with Some h => Some (load w h) | None => None end.
(** Problem [k] as the user sees it: with its working model. *)
Definition problem_at (w : world) (k : nat) : option ocp :=
  match nth_error (w_probs w) k with
  | None => None
  | Some p => match model_at w (p_model p) with Some m => Some (set_o_model m (p_rest p)) | None => None end
  end.
(** The number of the working model of problem [k], and of the model it was made from. *)
Definition working (w : world) (k : nat) : option nat := option_map p_model (nth_error (w_probs w) k).
Definition made_from (w : world) (k : nat) : option nat := option_map p_user (nth_error (w_probs w) k).

(** What a user can reach. *)
Definition reached (same : expr -> expr -> bool) (rebound : cmd model unit -> model -> option equations)
    (w : world) : Prop := exists calls, w = history same rebound calls nothing.

(** The model that a call is made on. *)
Definition target (w : world) (c : call) : option nat :=
  match c with
  | CModel i _ | CInclude i _ => Some i
  | CEdit k _ | CMerge k _ => working w k
  | CNew _ _ | CCopy _ | CDeepCopy _ _ | CProblem _ _ _ _ | CReset _ => None
  end.
(** No call of a history is made on model [i]. *)
Fixpoint never_on (same : expr -> expr -> bool) (rebound : cmd model unit -> model -> option equations)
    (i : nat) (calls : list call) (w : world) : Prop :=
  match calls with
  | [] => True
  | c :: rest => target w c <> Some i /\ never_on same rebound i rest (fst (step same rebound c w))
  end.

(** The call is a method of problem [k]. *)
Definition method_of (k : nat) (c : call) : Prop :=
  match c with CEdit k' _ | CMerge k' _ | CReset k' => k' = k | _ => False end.
(** A call is made on problem [k] or on its working model. *)
Definition concerns (w : world) (k : nat) (c : call) : Prop :=
  method_of k c \/ exists j, target w c = Some j /\ working w k = Some j.

(** ** The calls on values *)
Record ideal_problem := mkIdeal { ip_user : nat; ip_model : nat; ip_rest : ocp }.
Record values := mkValues { v_models : list model; v_probs : list ideal_problem }.

Definition change {A : Type} (i : nat) (f : A -> A) (l : list A) : list A :=
  map (fun ia => if Nat.eqb (fst ia) i then f (snd ia) else snd ia) (combine (seq 0 (length l)) l).

Section Ideal.
  Variable same : expr -> expr -> bool.

  Definition ideal_model (i : nat) (c : cmd model unit) (v : values) : values * res unit :=
    match nth_error (v_models v) i with
    | None => (v, Raise IndexError)
    | Some m => (mkValues (change i (fun _ => fst (c m)) (v_models v)) (v_probs v), snd (c m))
    end.
  Definition ideal_prob (k : nat) (c : cmd ocp unit) (v : values) : values * res unit :=
    match nth_error (v_probs v) k with
    | None => (v, Raise IndexError)
    | Some p =>
        match nth_error (v_models v) (ip_model p) with
        | None => (v, Raise IndexError)
        | Some m =>
            let o := set_o_model m (ip_rest p) in
            (mkValues (change (ip_model p) (fun _ => o_model (fst (c o))) (v_models v))
                      (change k (fun p => mkIdeal (ip_user p) (ip_model p) (fst (c o))) (v_probs v)),
             snd (c o))
        end
    end.
  (** One after the other, up to the first failure. *)
  Fixpoint ideal_each (f : nat -> values -> values * res unit) (l : list nat) (v : values) : values * res unit :=
    match l with
    | [] => (v, Ok tt)
    | j :: l => match f j v with
                | (v', Ok _) => ideal_each f l v'
                | (v', Raise e) => (v', Raise e)
                end
    end.

  Definition ideal_step (c : call) (v : values) : values * res unit :=
    match c with
    | CNew t tau => (mkValues (v_models v ++ [new_model t tau]) (v_probs v), Ok tt)
    | CCopy i =>
        match nth_error (v_models v) i with
        | None => (v, Raise IndexError)
        | Some m => (mkValues (v_models v ++ [m]) (v_probs v), Ok tt)
        end
    | CDeepCopy i f =>
        match nth_error (v_models v) i with
        | None => (v, Raise IndexError)
        | Some m => match get_deepcopy f m with
                    | Raise e => (v, Raise e)
                    | Ok m' => (mkValues (v_models v ++ [m']) (v_probs v), Ok tt)
                    end
        end
    | CModel i o => ideal_model i (model_step same o) v
    | CInclude i others =>
        ideal_each (fun j v => match nth_error (v_models v) j with
                               | None => (v, Raise IndexError)
                               | Some m => ideal_model i (include_model m) v
                               end) others v
    | CProblem i x_0 t_0 t_f =>
        match nth_error (v_models v) i with
        | None => (v, Raise IndexError)
        | Some m =>
            let v' := mkValues (v_models v ++ [m]) (v_probs v) in
            match new_ocp m x_0 t_0 t_f with
            | Raise e => (v', Raise e)
            | Ok o => (mkValues (v_models v') (v_probs v ++ [mkIdeal i (length (v_models v)) o]), Ok tt)
            end
        end
    | CEdit k o => ideal_prob k (ocp_step same o) v
    | CMerge k others =>
        ideal_each (fun j v =>
          match nth_error (v_probs v) j with
          | None => (v, Raise IndexError)
          | Some q => match nth_error (v_models v) (ip_model q) with
                      | None => (v, Raise IndexError)
                      | Some m => ideal_prob k (merge_problem (set_o_model m (ip_rest q))) v
                      end
          end) others v
    | CReset k =>
        match nth_error (v_probs v) k with
        | None => (v, Raise IndexError)
        | Some p =>
            match nth_error (v_models v) (ip_user p) with
            | None => (v, Raise IndexError)
            | Some m => (mkValues (v_models v ++ [m])
                                  (change k (fun p => mkIdeal (ip_user p) (length (v_models v)) (ip_rest p)) (v_probs v)),
                         Ok tt)
            end
        end
    end.

  Fixpoint ideal_history (calls : list call) (v : values) : values :=
    match calls with [] => v | c :: rest => ideal_history rest (fst (ideal_step c v)) end.
End Ideal.

(** The models and problems that a world shows, as values. *)
Definition shown (w : world) : values :=
  mkValues (map (load w) (w_models w))
           (map (fun p => mkIdeal (p_user p) (p_model p) (p_rest p)) (w_probs w)).

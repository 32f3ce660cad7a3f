(** The plots of the connections of a network (methods/base/distributed_optimization_result.py)
    and the data set that a result keeps (methods/base/optimizationresult.py). *)
From Coq Require Import String.
From Verif Require Import Base UtilModel ExprModel SysModel SimModel DataModel DiscModel NetModel ResModel PloModel.
Local Open Scope list_scope.
Local Open Scope nat_scope.

Section Relaxations.
  Variable re : string -> string -> res bool.
  (** The data sets of the results, by node; [result.dataset] may fail. *)
  Variable results : dict addr (res dataset).
  (** [node.problem.model.y] and [node.problem.model.u].  Every node has a problem. *)
  Variables y_of u_of : addr -> list sym.

  (** [self.results[node].plot({entry: index}, figures=[fig])] (59-60), with the figure number
      [fig]; a list of positions has no patterns.  [show] is not modelled: figures stay open. *)
  Definition draw_end (node : addr) (entry : string) (index : list nat) (fig : nat) : res (list (figure * list line)) :=
    match dget Nat.eqb node results with
    | None => Raise KeyError
    | Some (Raise x) => Raise x
    | Some (Ok d) => snd (plot re false d (Some [fig]) [[(entry, Chosen (map (fun i => Index (Z.of_nat i)) index))]])
    end.
  (** 52-60: one connection. *)
  Definition draw_connection (k : nat) (c : addr * addr * conn) : res (list (figure * list line)) :=
    let '(a, b, (ys, us)) := c in
    let y_index := find_syms ys (y_of a) in
    let u_index := find_syms us (u_of b) in
    match draw_end a "y" y_index k with
    | Raise x => Raise x
    | Ok l => match draw_end b "u" u_index k with Raise x => Raise x | Ok l' => Ok (l ++ l') end
    end.
  (** 50-60 [plot_all_relaxations]: what is drawn for every connection.  What is drawn before an
      error is lost here. *)
  Fixpoint draw_connections (k : nat) (cs : list (addr * addr * conn)) : res (list (list (figure * list line))) :=
    match cs with
    | [] => Ok []
    | c :: cs' => match draw_connection k c with
                  | Raise x => Raise x
                  | Ok l => match draw_connections (S k) cs' with Raise x => Raise x | Ok ls => Ok (l :: ls) end
                  end
    end.
  Definition plot_all_relaxations (g : graph) : res (list (list (figure * list line))) := draw_connections 0 (edges g).
End Relaxations.

(** ** The data set of a result *)

(** optimizationresult.py:63: [_dataset]; the data set is an object, so what is done to it
    through one reference is seen through all. *)
Record kept := mkKept { k_result : opt_result; k_dataset : option dataset }.
(** optimizationresult.py:68-72 [dataset]. *)
Definition get_dataset (default : string -> nat -> string) : cmd kept dataset :=
  fun s => match k_dataset s with
           | Some d => (s, Ok d)
           | None => match to_dataset default (k_result s) with
                     | Ok d => (mkKept (k_result s) (Some d), Ok d)
                     | Raise x => (s, Raise x)
                     end
           end.
(** Calls of a user: an attribute of the result is assigned, the data set is asked for, or a
    method is called on [result.dataset]. *)
Inductive kept_op := Assign (f : opt_result -> opt_result) | Ask | Call (op : data_op).
Definition kept_step (default : string -> nat -> string) (op : kept_op) : cmd kept unit :=
  fun s => match op with
           | Assign f => (mkKept (f (k_result s)) (k_dataset s), Ok tt)
           | Ask => match get_dataset default s with (s', Ok _) => (s', Ok tt) | (s', Raise x) => (s', Raise x) end
           | Call c => match get_dataset default s with
                       | (s', Ok d) => (mkKept (k_result s') (Some (fst (data_step default c d))), snd (data_step default c d))
                       | (s', Raise x) => (s', Raise x)
                       end
           end.

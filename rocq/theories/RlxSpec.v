(** Vocabulary for the plots of connections and the data set of a result. *)
From Coq Require Import String.
From Verif Require Import Base ExprModel SysModel SimModel DataModel ResModel NetModel PloModel PloSpec RlxModel.
Local Open Scope list_scope.
Local Open Scope nat_scope.

(** Row [r] belongs to one of the variables [vars]. *)
Definition row_of (vector vars : list sym) (r : nat) : Prop := exists v, nth_error vector r = Some v /\ In v vars.
(** All these rows are in entry [k] of the data set, with names and values, and can be drawn. *)
Definition has_rows (d : dataset) (k : string) (vector vars : list sym) : Prop :=
  exists e, look k d = Some e /\
    (forall r, row_of vector vars r -> r < length (e_names e) /\ r < mrows (e_values e)) /\
    (e_style e = "plot"%string \/ e_style e = "step"%string \/ forall r, ~ row_of vector vars r).
Definition every_line (drawn : list (figure * list line)) : list line := flat_map snd drawn.

(** The data set of node [a]. *)
Definition data_of (results : dict addr (res dataset)) (a : addr) (d : dataset) : Prop := dget Nat.eqb a results = Some (Ok d).

(** ** Two connections *)

Definition pipe_data (q : Q) : dataset :=
  [("y"%string, mkEntry ["out_1"; "out_2"]%string (Some 2) [0; 1]%Q (mkMat 2 [[q; 1]; [q; 2]]%Q) "plot");
   ("u"%string, mkEntry ["in"]%string (Some 1) [0]%Q (mkMat 1 [[q]]%Q) "step")].
(** Node 0 feeds nodes 1 and 2. *)
Definition pipes : graph := [(0, [(1, ([10], [21])); (2, ([11], [22]))]); (1, []); (2, [])].
Definition pipe_results : dict addr (res dataset) := [(0, Ok (pipe_data 5%Q)); (1, Ok (pipe_data 6%Q)); (2, Ok (pipe_data 7%Q))].
Definition pipe_y (a : addr) : list sym := if a =? 0 then [10; 11] else [].
Definition pipe_u (a : addr) : list sym := [20 + a].

(** The calls on the data set itself, in order. *)
Definition calls (ops : list kept_op) : list data_op := flat_map (fun o => match o with Call c => [c] | _ => [] end) ops.
Definition assigned (ops : list kept_op) (r : opt_result) : opt_result :=
  fold_left (fun r o => match o with Assign f => f r | _ => r end) ops r.
Definition reads (op : kept_op) : Prop := match op with Assign _ => False | _ => True end.

(** A result with one state over [n] elements, of which there is data for one. *)
Definition a_run (n : nat) (v : Q) : opt_result :=
  mkResult n 1 0%Q 1%Q [0; 1]%Q ["h"%string] [] [] [] [[[v]]; [[2%Q]]] [] [] [[0%Q]] [] [] [] [] [] [] [] [] [] None.
Definition tries : list kept_op := [Assign (fun _ => a_run 2 5%Q); Ask; Assign (fun _ => a_run 1 5%Q)].
Definition plain_name (k : string) (i : nat) : string := k.

(** Specification vocabulary for stochastic problems and polynomial chaos. *)
From Coq Require Import String.
From Verif Require Import Base ExprModel SysModel OcpModel StoModel.
Local Open Scope list_scope.

(** A group of uncertain quantities declared together. *)
Record group := mkGroup { g_syms : list sym; g_mean : list Q; g_cov : list (list Q); g_dist : string }.
Definition square (n : nat) (M : list (list Q)) : Prop := length M = n /\ Forall (fun r => length r = n) M.
Definition sound (g : group) : Prop :=
  length (g_mean g) = length (g_syms g) /\ square (length (g_syms g)) (g_cov g).

(** Entry (i, j) of the covariance of independent groups. *)
Fixpoint cov_at (groups : list group) (i j : nat) : Q :=
  match groups with
  | [] => 0%Q
  | g :: rest =>
      let n := length (g_syms g) in
      if i <? n then if j <? n then nth j (nth i (g_cov g) []) 0%Q else 0%Q
      else if j <? n then 0%Q else cov_at rest (i - n) (j - n)
  end.
Definition entry (M : list (list Q)) (i j : nat) : Q := nth j (nth i M []) 0%Q.

(** Mean, covariance and distributions are those of the groups. *)
Definition describes (groups : list group) (syms : list sym) (mean : list Q) (cov : list (list Q))
    (dist : list string) : Prop :=
  syms = flat_map g_syms groups /\ mean = flat_map g_mean groups /\
  dist = flat_map (fun g => repeat (g_dist g) (length (g_syms g))) groups /\
  length mean = length syms /\ length dist = length syms /\ square (length syms) cov /\
  forall i j, i < length syms -> j < length syms -> entry cov i j = cov_at groups i j.

(** What a list of calls declares: uncertain parameters, uncertain initial conditions,
    chance constraints, and the calls on the underlying problem. *)
Definition soundb (g : group) : bool :=
  (length (g_syms g) =? length (g_mean g)) && (length (g_cov g) =? length (g_syms g)) &&
  forallb (fun r => length r =? length (g_syms g)) (g_cov g).
Definition if_sound (g : group) : list group := if soundb g then [g] else [].
Definition parameter_groups (ops : list socp_op) : list group :=
  flat_map (fun op => match op with
                      | SIncludeUncertain a m c d | SSetUncertain a m c d => if_sound (mkGroup a m c d)
                      | _ => []
                      end) ops.
Definition initial_groups (ops : list socp_op) : list group :=
  flat_map (fun op => match op with SSetInitial a m c d => if_sound (mkGroup a m c d) | _ => [] end) ops.
Definition chances (ops : list socp_op) : list (list expr * list Q * list Q) :=
  flat_map (fun op => match op with
                      | SChance g prob None _ => [(g, repeat 0%Q (length g), prob)]
                      | SChance g prob (Some r) _ => if length g =? length r then [(g, r, prob)] else []
                      | _ => []
                      end) ops.
Definition problem_calls (ops : list socp_op) : list ocp_op :=
  flat_map (fun op => match op with
                      | SIncludeUncertain a _ _ _ => [PIncludeParameter a]
                      | SProblem op => [op]
                      | _ => []
                      end) ops.

(** ** Samples *)

(** Sum over an index range. *)
Definition qsum_to (n : nat) (f : nat -> Q) : Q := fold_right Qplus 0%Q (map f (seq 0 n)).
(** [R] is a factor of [C]: R'R = C. *)
Definition factor_of (n : nat) (R C : list (list Q)) : Prop :=
  square n R /\ forall i j, i < n -> j < n -> (qsum_to n (fun k => entry R k i * entry R k j) == entry C i j)%Q.
Definition is_identity (n : nat) (M : list (list Q)) : Prop :=
  square n M /\ forall i j, i < n -> j < n -> (entry M i j == if i =? j then 1 else 0)%Q.

(** ** Polynomials *)

(** The probabilists' Hermite polynomials. *)
Fixpoint hermite_pair (n : nat) (x : Q) : Q * Q :=
  match n with
  | 0 => (1, x)%Q
  | S n' => let (a, b) := hermite_pair n' x in (b, x * b - inject_Z (Z.of_nat (S n')) * a)%Q
  end.
Definition hermite (n : nat) (x : Q) : Q := fst (hermite_pair n x).

Definition degree_sum (e : list nat) : nat := fold_right Nat.add 0 e.
Definition hermite_product (e : list nat) (x : list Q) : Q :=
  fold_right Qmult 1%Q (map (fun dv => hermite (fst dv) (snd dv)) (combine e x)).

(** ** Example data: a tank with two uncertain parameters and an uncertain initial level. *)
Definition leaky_ops : list socp_op :=
  [ SIncludeUncertain [20; 21] [1; 2]%Q [[4; 2]; [2; 10]]%Q "normal";
    SSetUncertain [22] [1; 2]%Q [[1]]%Q "normal";                        (* refused *)
    SSetInitial [11] [5]%Q [[16]]%Q "normal";
    SIncludeUncertain [23] [3]%Q [[25]]%Q "normal";
    SChance [EVar 10] [(9 # 10)%Q] (Some [7]%Q) "end" ].
Definition leaky_problem : res ocp := new_ocp (new_model 0 1) None 0%Q 10%Q.
Definition leaky (more : list socp_op) : res socp :=
  bind leaky_problem (fun o => Ok (run_caught (socp_step (fun _ _ => false)) (leaky_ops ++ more) (new_socp o))).
Definition leaky_cov : matrix := [[4; 2; 0; 0]; [2; 10; 0; 0]; [0; 0; 25; 0]; [0; 0; 0; 16]]%Q.
Definition leaky_factor : matrix := [[2; 1; 0; 0]; [0; 3; 0; 0]; [0; 0; 5; 0]; [0; 0; 0; 4]]%Q.
Definition number_eq_dec : forall a b : Q, {a = b} + {a <> b}.
Proof. decide equality; [apply Pos.eq_dec | apply Z.eq_dec]. Defined.
Definition leaky_chol (M : matrix) : res matrix :=
  let same := list_eq_dec (list_eq_dec number_eq_dec) in
  if same M leaky_cov then Ok leaky_factor
  else if same M (eye (length M)) then Ok (eye (length M)) else Raise CasadiError.
Definition leaky_normal (n k : nat) : list (list Q) := repeat (map (fun i => inject_Z (Z.of_nat (i + 1))) (seq 0 n)) k.

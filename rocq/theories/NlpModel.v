(** Model of yaocptool/optimization/abstract_optimization_problem.py: the
    builder of nonlinear programs and the arguments passed to the solver. *)
From Verif Require Import Base ExprModel.

(** Numbers with infinities, as stored in a DM.  NaN is not modelled. *)
Inductive ext : Type := NInf | Fin (q : Q) | PInf.

Definition ext_ltb (a b : ext) : bool :=
  match a, b with
  | NInf, NInf => false
  | NInf, _ => true
  | Fin _, NInf => false
  | Fin x, Fin y => negb (Qle_bool y x)
  | Fin _, PInf => true
  | PInf, _ => false
  end.

(** An entry of a bound vector: a number, or (when the vector is an MX) a
    symbolic expression.  Constant entries are represented as numbers. *)
Inductive bnd : Type := BNum (e : ext) | BExp (e : expr).

Definition bnd_constant (b : bnd) : bool :=
  match b with BNum _ => true | BExp e => is_constant e end.
Definition bnd_depends_on (b : bnd) (vars : list sym) : bool :=
  match b with BNum _ => false | BExp e => depends_on e vars end.
Definition bnds_constant (l : list bnd) : bool := forallb bnd_constant l.
Definition bnds_depend_on (l : list bnd) (vars : list sym) : bool :=
  existsb (fun b => bnd_depends_on b vars) l.

(** The Python types a bound can be given as: a float, an int, or a column
    vector (DM or MX). *)
Inductive barg : Type := AFloat (e : ext) | AInt (z : Z) | AVec (l : list bnd).

Definition num_of_int (z : Z) : ext := Fin (inject_Z z).

(** casadi [repmat(v, n)] of a column vector. *)
Definition repmat {A : Type} (l : list A) (n : nat) : list A := concat (repeat l n).

(** Comparison [lb_i > ub_i] used as a condition: with symbolic operands casadi
    cannot decide it and raises. *)
Definition bnd_gt (lb ub : bnd) : res bool :=
  match lb, ub with
  | BNum a, BNum b => Ok (ext_ltb b a)
  | _, _ => Raise CasadiError
  end.

(** A snapshot of what [_create_solver] compiles (nonlinear_problem.py:28-30):
    objective, constraints, variables, parameters. *)
Record solver_fun := mkSolver
  { s_f : list expr; s_g : list expr; s_x : list sym; s_p : list sym }.

(** abstract_optimization_problem.py:22-55: the attributes of the problem. *)
Record nlp := mkNlp
  { nx : list sym; nx_lb : list bnd; nx_ub : list bnd;
    ng : list expr; ng_lb : list bnd; ng_ub : list bnd;
    np : list sym; nf : list expr; nsolver : option solver_fun }.

Definition nlp_init : nlp := mkNlp [] [] [] [] [] [] [] [] None.

(** abstract_optimization_problem.py:140-143 and 246-247, 260-261: a vector of
    one entry is spread over the [n] components when there is more than one. *)
Definition spread (b : list bnd) (n : nat) : list bnd :=
  if Nat.eqb (length b) 1 && (1 <? n)%nat then repmat b n else b.

(** abstract_optimization_problem.py:161-168 and 277-284: the loop that looks
    for a lower bound above the upper bound. *)
Fixpoint bounds_loop (lb ub : list bnd) : res unit :=
  match lb, ub with
  | l :: lb', u :: ub' =>
      match bnd_gt l u with
      | Raise e => Raise e
      | Ok true => Raise ValueError
      | Ok false => bounds_loop lb' ub'
      end
  | _, _ => Ok tt
  end.

(** abstract_optimization_problem.py:135-138: only floats are converted. *)
Definition variable_bound (a : barg) : res (list bnd) :=
  match a with
  | AFloat e => Ok [BNum e]
  | AInt _ => Raise AttributeError (* int has no numel, line 140 *)
  | AVec l => Ok l
  end.

(** abstract_optimization_problem.py:122-172 [include_variable]. *)
Definition include_variable (variable : list sym) (lb ub : barg) : cmd nlp unit :=
  fun s =>
    match variable_bound lb, variable_bound ub with
    | Ok lb0, Ok ub0 =>
        let lb1 := spread lb0 (length variable) in
        let ub1 := spread ub0 (length variable) in
        if negb (length variable =? length lb1)%nat || negb (length variable =? length ub1)%nat
        then (s, Raise ValueError)
        else if (negb (bnds_constant lb1) && bnds_depend_on lb1 (np s))
             || (negb (bnds_constant ub1) && bnds_depend_on ub1 (np s))
        then (s, Raise ValueError)
        else match bounds_loop lb1 ub1 with
             | Raise e => (s, Raise e)
             | Ok _ =>
                 (mkNlp (nx s ++ variable) (nx_lb s ++ lb1) (nx_ub s ++ ub1)
                        (ng s) (ng_lb s) (ng_ub s) (np s) (nf s) (nsolver s), Ok tt)
             end
    | Raise e, _ => (s, Raise e)
    | _, Raise e => (s, Raise e)
    end.

(** abstract_optimization_problem.py:94-120 [create_variable]; [new_x] are the
    symbols created in line 117. *)
Definition create_variable (new_x : list sym) (lb ub : barg) : cmd nlp unit :=
  let size := length new_x in
  let widen a := match a with
                 | AFloat e => AVec (repmat [BNum e] size)
                 | AInt z => AVec (repmat [BNum (num_of_int z)] size)
                 | AVec l => AVec l
                 end in
  include_variable new_x (widen lb) (widen ub).

(** abstract_optimization_problem.py:187-193 [include_parameter]. *)
Definition include_parameter (par : list sym) : cmd nlp unit :=
  cmodify (fun s => mkNlp (nx s) (nx_lb s) (nx_ub s) (ng s) (ng_lb s) (ng_ub s)
                          (np s ++ par) (nf s) (nsolver s)).

(** abstract_optimization_problem.py:195-211 [set_objective]. *)
Definition set_objective (e : list expr) : cmd nlp unit :=
  fun s => if (1 <? length e)%nat then (s, Raise ValueError)
           else (mkNlp (nx s) (nx_lb s) (nx_ub s) (ng s) (ng_lb s) (ng_ub s)
                       (np s) e (nsolver s), Ok tt).

(** abstract_optimization_problem.py:228-231, 242-247: a bound of an
    inequality, with [dflt] the value used when it is not given. *)
Definition constraint_bound (dflt : ext) (a : option barg) (n : nat) : list bnd :=
  match a with
  | None => repeat (BNum dflt) n
  | Some (AFloat e) => spread [BNum e] n
  | Some (AInt z) => spread [BNum (num_of_int z)] n
  | Some (AVec l) => spread l n
  end.

(** abstract_optimization_problem.py:277-284: bounds are compared only when
    both vectors are constant. *)
Definition inequality_loop (lb ub : list bnd) : res unit :=
  if bnds_constant lb && bnds_constant ub then bounds_loop lb ub else Ok tt.

(** abstract_optimization_problem.py:213-288 [include_inequality].  [cols] is
    [expr.size2()]; [e] is the (column) expression. *)
Definition include_inequality (cols : nat) (e : list expr) (lb ub : option barg)
  : cmd nlp unit :=
  fun s =>
    let lb1 := constraint_bound NInf lb (length e) in
    let ub1 := constraint_bound PInf ub (length e) in
    if (1 <? cols)%nat then (s, Raise AnyException)
    else if negb (length e =? length lb1)%nat then (s, Raise ValueError)
    else if negb (length e =? length ub1)%nat then (s, Raise ValueError)
    else if bnds_depend_on (lb1 ++ ub1) (nx s ++ np s) then (s, Raise ValueError)
    else match inequality_loop lb1 ub1 with
         | Raise x => (s, Raise x)
         | Ok _ =>
             (mkNlp (nx s) (nx_lb s) (nx_ub s)
                    (ng s ++ e) (ng_lb s ++ lb1) (ng_ub s ++ ub1)
                    (np s) (nf s) (nsolver s), Ok tt)
         end.

(** abstract_optimization_problem.py:290-330 [include_equality]. *)
Definition include_equality (cols : nat) (e : list expr) (rhs : option barg) : cmd nlp unit :=
  fun s =>
    let rhs1 := match rhs with
                | None => repeat (BNum (Fin 0)) (length e)
                | Some (AFloat x) => spread [BNum x] (length e)
                | Some (AInt z) => spread [BNum (num_of_int z)] (length e)
                | Some (AVec l) => spread l (length e)
                end in
    if (1 <? cols)%nat then (s, Raise AnyException)
    else if negb (length e =? length rhs1)%nat then (s, Raise ValueError)
    else if bnds_depend_on rhs1 (nx s ++ np s) then (s, Raise ValueError)
    else (mkNlp (nx s) (nx_lb s) (nx_ub s)
                (ng s ++ e) (ng_lb s ++ rhs1) (ng_ub s ++ rhs1)
                (np s) (nf s) (nsolver s), Ok tt).

(** What [expr.op()] can be: [x == y], [x <= y], [x < y] or anything else. *)
Inductive relop := OpEq | OpLe | OpLt | OpOther.

(** A relational MX expression with its two operands [dep(0)], [dep(1)]. *)
Record rel := mkRel { r_op : relop; r_dep0 : list expr; r_dep1 : list expr }.

(** yaocptool/util/util.py:233-243 [is_inequality]: the second disjunct
    compares the bound method [expr.op] itself with [OP_LT] and is always
    false. *)
Definition is_inequality (r : rel) : bool :=
  match r_op r with OpLe => true | _ => false end.

(** yaocptool/util/util.py:246-255 [is_equality]. *)
Definition is_equality (r : rel) : bool :=
  match r_op r with OpEq => true | _ => false end.

(** casadi [to_DM()] of a constant vector, with [F] the meaning of the unary
    operations. *)
Definition to_DM (F : nat -> Q -> Q) (es : list expr) : list bnd :=
  map (fun e => BNum (Fin (eval F (fun _ => 0%Q) e))) es.

Section Constraint.
  Variable F : nat -> Q -> Q.
  (** [is_equal_dm dm e] is casadi's [is_equal(dm, e)] of a numeric vector and
      an MX expression. *)
  Variable is_equal_dm : list bnd -> list expr -> bool.

  (** abstract_optimization_problem.py:332-381 [include_constraint]. *)
  Definition include_constraint (r : rel) : cmd nlp unit :=
    fun s =>
      let xp := nx s ++ np s in
      let const v := forallb is_constant v in
      if negb (is_inequality r) && negb (is_equality r) then (s, Raise ValueError)
      else if const (r_dep0 r) && const (r_dep1 r) then (s, Raise ValueError)
      else if depends_on_vec (r_dep0 r) xp && depends_on_vec (r_dep1 r) xp
      then (s, Raise ValueError)
      else
        let d0 := depends_on_vec (r_dep0 r) xp in
        let dep_term := if d0 then r_dep0 r else r_dep1 r in
        let indep_term := if d0 then r_dep1 r else r_dep0 r in
        if const indep_term then
          let dm := to_DM F indep_term in
          if is_equality r then include_equality 1 dep_term (Some (AVec dm)) s
          else if is_inequality r then
            if is_equal_dm dm (r_dep1 r)
            then include_inequality 1 dep_term None (Some (AVec dm)) s
            else include_inequality 1 dep_term (Some (AVec dm)) None s
          else (s, Ok tt)
        else (s, Raise NotImplementedErr).
End Constraint.

(** abstract_optimization_problem.py:426 [get_default_call_dict] and 457-480
    [_get_solver_call_args].  The call dictionary holds the four bound vectors
    and, when given, guess and multipliers; the entry 'p' is always set. *)
Inductive ckey := Lbx | Ubx | Lbg | Ubg | X0 | LamX0 | LamG0 | PKey | OtherKey (n : nat).
Definition ckey_eqb (a b : ckey) : bool :=
  match a, b with
  | Lbx, Lbx | Ubx, Ubx | Lbg, Lbg | Ubg, Ubg | X0, X0 | LamX0, LamX0
  | LamG0, LamG0 | PKey, PKey => true
  | OtherKey n, OtherKey m => Nat.eqb n m
  | _, _ => false
  end.
Definition call_dict := dict ckey (list bnd).

Definition get_default_call_dict (s : nlp) : call_dict :=
  [(Lbx, nx_lb s); (Ubx, nx_ub s); (Lbg, ng_lb s); (Ubg, ng_ub s)].

Definition set_opt (k : ckey) (v : option (list bnd)) (d : call_dict) : call_dict :=
  match v with Some x => dset ckey_eqb k x d | None => d end.

Definition get_solver_call_args (s : nlp) (guess : option (list bnd))
           (cd : option call_dict) (p lam_x lam_g : option (list bnd)) : res call_dict :=
  let cd0 := match cd with Some d => d | None => get_default_call_dict s end in
  let p0 := match p with Some v => v | None => [] end in
  let cd1 := set_opt LamG0 lam_g (set_opt LamX0 lam_x (set_opt X0 guess cd0)) in
  let cd2 := dset ckey_eqb PKey p0 cd1 in
  if negb (length p0 =? length (np s))%nat then Raise ValueError else Ok cd2.

(** abstract_optimization_problem.py:396-404 [get_solver] with
    nonlinear_problem.py:28-30 [_create_solver]. *)
Definition current_solver (s : nlp) : solver_fun := mkSolver (nf s) (ng s) (nx s) (np s).
Definition get_solver (s : nlp) : nlp * solver_fun :=
  match nsolver s with
  | Some f => (s, f)
  | None => (mkNlp (nx s) (nx_lb s) (nx_ub s) (ng s) (ng_lb s) (ng_ub s) (np s) (nf s)
                   (Some (current_solver s)), current_solver s)
  end.

(** abstract_optimization_problem.py:428-455 [solve]: what is called with what.
    The numerical result is not modelled. *)
Definition solve (guess : option (list bnd)) (cd : option call_dict)
           (p lam_x lam_g : option (list bnd)) : cmd nlp (solver_fun * call_dict) :=
  fun s => match get_solver_call_args s guess cd p lam_x lam_g with
           | Raise e => (s, Raise e)
           | Ok args => let (s', f) := get_solver s in (s', Ok (f, args))
           end.

(** The calls a user can make on a problem. *)
Inductive nlp_op : Type :=
| NCreateVariable (v : list sym) (lb ub : barg)
| NIncludeVariable (v : list sym) (lb ub : barg)
| NIncludeParameter (p : list sym)
| NSetObjective (e : list expr)
| NIncludeInequality (cols : nat) (e : list expr) (lb ub : option barg)
| NIncludeEquality (cols : nat) (e : list expr) (rhs : option barg)
| NIncludeConstraint (r : rel)
| NSolve (guess : option (list bnd)) (cd : option call_dict)
         (p lam_x lam_g : option (list bnd)).

Definition forget {S A : Type} (m : cmd S A) : cmd S unit :=
  fun s => match m s with (s', Ok _) => (s', Ok tt) | (s', Raise e) => (s', Raise e) end.

Definition nlp_step (F : nat -> Q -> Q) (is_equal_dm : list bnd -> list expr -> bool)
           (o : nlp_op) : cmd nlp unit :=
  match o with
  | NCreateVariable v lb ub => create_variable v lb ub
  | NIncludeVariable v lb ub => include_variable v lb ub
  | NIncludeParameter p => include_parameter p
  | NSetObjective e => set_objective e
  | NIncludeInequality cols e lb ub => include_inequality cols e lb ub
  | NIncludeEquality cols e rhs => include_equality cols e rhs
  | NIncludeConstraint r => include_constraint F is_equal_dm r
  | NSolve guess cd p lx lg => forget (solve guess cd p lx lg)
  end.

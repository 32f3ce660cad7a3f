(** Values of function calls, and constraints as conditions on a point. *)
From Coq Require Import String Sorted SetoidList Lqa.
From Verif Require Import Base BaseProofs UtilModel ExprModel ExprProofs NlpModel NlpSpec NlpProofs SysModel
  SysSpec SysProofs SimModel OcpModel OcpSpec LagModel LagSpec LagProofs DiscModel DiscSpec DiscProofs ColSpec
  ColPolyProofs.
Local Open Scope list_scope.
Local Open Scope nat_scope.

(** ** Values of vectors *)

Definition vals (F : nat -> Q -> Q) (env : sym -> Q) (es : list expr) (vs : list Q) : Prop :=
  Forall2 (fun e v => (eval F env e == v)%Q) es vs.

Lemma vals_length : forall F env es vs, vals F env es vs -> length es = length vs.
Proof. intros F env es vs H. exact (Forall2_len _ _ _ _ _ H). Qed.
Lemma vals_app : forall F env a b va vb, vals F env a va -> vals F env b vb -> vals F env (a ++ b) (va ++ vb).
Proof. intros. apply Forall2_app; assumption. Qed.
Lemma vals_vars : forall F env v, vals F env (map EVar v) (map env v).
Proof. intros F env v. induction v as [|a v IH]; constructor; [reflexivity | exact IH]. Qed.
Lemma vals_nth : forall F env es vs i e, vals F env es vs -> nth_error es i = Some e ->
    exists v, nth_error vs i = Some v /\ (eval F env e == v)%Q.
Proof.
  intros F env es vs i e H. revert i. induction H as [|a b l l' Hab H IH]; intros [|i] Hi; try discriminate.
  - injection Hi as ->. exists b. split; [reflexivity | exact Hab].
  - apply IH, Hi.
Qed.
Lemma vals_nth' : forall F env es vs i v, vals F env es vs -> nth_error vs i = Some v ->
    exists e, nth_error es i = Some e /\ (eval F env e == v)%Q.
Proof.
  intros F env es vs i e H. revert i. induction H as [|a b l l' Hab H IH]; intros [|i] Hi; try discriminate.
  - injection Hi as ->. exists a. split; [reflexivity | exact Hab].
  - apply IH, Hi.
Qed.
Lemma vals_intro : forall F env es vs, length es = length vs ->
    (forall i e v, nth_error es i = Some e -> nth_error vs i = Some v -> (eval F env e == v)%Q) -> vals F env es vs.
Proof.
  intros F env es. induction es as [|e es IH]; intros [|v vs] Hl H; try discriminate; [constructor|].
  constructor; [apply (H 0); reflexivity|]. apply IH; [simpl in Hl; lia|]. intros i. apply (H (S i)).
Qed.
Lemma vals_Qeq : forall F env es vs vs', vals F env es vs -> Forall2 Qeq vs vs' -> vals F env es vs'.
Proof.
  intros F env es vs vs' H. revert vs'. induction H as [|a b l l' Hab H IH]; intros vs' H'; inversion H'; subst; constructor.
  - rewrite Hab. assumption.
  - apply IH. assumption.
Qed.

(** ** Assignments of several blocks *)

Lemma assign_nth : forall env v q i s x, NoDup v -> nth_error v i = Some s -> nth_error q i = Some x ->
    assign env v q s = x.
Proof.
  intros env v. induction v as [|a v IH]; intros q i s x N Hs Hx; [destruct i; discriminate|].
  inversion N as [|? ? Ha N']; subst. destruct q as [|b q]; [destruct i; discriminate|].
  cbn [assign]. destruct (Nat.eq_dec s a) as [->|Hne].
  - destruct i as [|i]; [injection Hx as ->; reflexivity|]. exfalso. apply Ha. apply (nth_error_In v i Hs).
  - destruct i as [|i]; [injection Hs as ->; contradiction|]. apply (IH q i); assumption.
Qed.
Lemma assign_map : forall env v q, NoDup v -> length v = length q -> map (assign env v q) v = q.
Proof.
  intros env v. induction v as [|a v IH]; intros [|b q] N Hl; try discriminate; [reflexivity|].
  inversion N as [|? ? Ha N']; subst. cbn [map assign]. destruct (Nat.eq_dec a a) as [_|]; [|contradiction].
  f_equal. transitivity (map (assign env v q) v); [|apply IH; [assumption | simpl in Hl; lia]]. apply map_ext_in. intros s Hs.
  destruct (Nat.eq_dec s a) as [->|]; [contradiction | reflexivity].
Qed.
(** A block of the symbols has its block of the values. *)
Lemma assign_block : forall env pre blk post vpre vblk vpost,
    NoDup (pre ++ blk ++ post) -> length pre = length vpre -> length blk = length vblk ->
    map (assign env (pre ++ blk ++ post) (vpre ++ vblk ++ vpost)) blk = vblk.
Proof.
  intros env pre blk post vpre vblk vpost N H1 H2.
  rewrite <- (assign_map env blk vblk) at 2; [|apply NoDup_app_r in N; apply NoDup_app_l in N; exact N | exact H2].
  apply map_ext_in. intros s Hs. apply In_nth_error in Hs. destruct Hs as [i Hi].
  assert (Hx : exists x, nth_error vblk i = Some x).
  { destruct (nth_error vblk i) eqn:E; [eexists; reflexivity|]. apply nth_error_None in E.
    assert (nth_error blk i <> None) by congruence. apply nth_error_Some in H. lia. }
  destruct Hx as [x Hx].
  rewrite (assign_nth env blk vblk i s x); [| apply NoDup_app_r in N; apply NoDup_app_l in N; exact N | exact Hi | exact Hx].
  apply (assign_nth env _ _ (length pre + i) s x N).
  - rewrite nth_error_app2 by lia. replace (length pre + i - length pre) with i by lia.
    rewrite nth_error_app1 by (apply nth_error_Some; congruence). exact Hi.
  - rewrite H1, nth_error_app2 by lia. replace (length vpre + i - length vpre) with i by lia.
    rewrite nth_error_app1 by (apply nth_error_Some; congruence). exact Hx.
Qed.

(** ** Function calls *)

Lemma make_function_ok : forall ins out f, make_function ins out = Ok f ->
    f = mkFunc ins out /\ forall e s, In e out -> In s (symbols e) -> In s (concat ins).
Proof.
  intros ins out f H. unfold make_function in H.
  destruct (forallb _ _) eqn:E; [|discriminate]. injection H as <-. split; [reflexivity|].
  rewrite forallb_forall in E. intros e s He Hs. apply memb_nat. apply E.
  apply in_flat_map. exists e. split; assumption.
Qed.
Lemma fit_all_ok : forall ins args, Forall2 (fun (i : list sym) (a : list expr) => length i = length a) ins args ->
    fit_all ins args = Ok (concat args).
Proof.
  intros ins args H. induction H as [|i a ins args Hia H IH]; [reflexivity|].
  cbn [fit_all concat]. unfold fit. rewrite Hia, Nat.eqb_refl, IH. reflexivity.
Qed.
(** The value of a call is the value of the expressions at the values of the arguments. *)
Lemma call_vals : forall F env rho ins out f args es,
    respects F -> NoDup (concat ins) ->
    make_function ins out = Ok f -> call f args = Ok es ->
    Forall2 (fun (i : list sym) (a : list expr) => length i = length a) ins args ->
    vals F env (concat args) (map rho (concat ins)) ->
    vals F env es (map (eval F rho) out).
Proof.
  intros F env rho ins out f args es HF N Hf Hc Hfit Hv.
  destruct (make_function_ok _ _ _ Hf) as [-> Hs]. unfold call in Hc. cbn [f_in f_out] in Hc.
  rewrite (fit_all_ok _ _ Hfit) in Hc. injection Hc as <-. unfold subst_vec.
  apply vals_intro; [rewrite !map_length; reflexivity|].
  intros i e v Hi Hv'. rewrite nth_error_map in Hi, Hv'.
  destruct (nth_error out i) as [d|] eqn:Ed; [|discriminate]. injection Hi as <-. injection Hv' as <-.
  rewrite eval_substitute. apply eval_ext_Qeq; [exact HF|]. intros s Hin.
  pose proof (Hs d s (nth_error_In _ _ Ed) Hin) as Hc. apply In_nth_error in Hc. destruct Hc as [j Hj].
  assert (Hj' : nth_error (map rho (concat ins)) j = Some (rho s)) by (rewrite nth_error_map, Hj; reflexivity).
  destruct (vals_nth' _ _ _ _ _ _ Hv Hj') as [a [Ha Ea]].
  rewrite (env_subst_nth F env _ _ j s a N Hj Ha). exact Ea.
Qed.

Lemma call_blocks : forall F env rho ins out f args es,
    respects F -> NoDup (concat ins) -> make_function ins out = Ok f -> call f args = Ok es ->
    Forall2 (fun i a => vals F env a (map rho i)) ins args ->
    vals F env es (map (eval F rho) out).
Proof.
  intros F env rho ins out f args es HF N Hf Hc H.
  refine (call_vals F env rho ins out f args es HF N Hf Hc _ _).
  - clear -H. induction H as [|i a ins args Hi H IH]; constructor; [|exact IH].
    apply vals_length in Hi. rewrite map_length in Hi. symmetry. exact Hi.
  - clear -H. induction H as [|i a ins args Hi H IH]; [constructor|].
    cbn [concat]. rewrite map_app. apply vals_app; assumption.
Qed.

Lemma Forall2_nth_intro : forall (A B : Type) (R : A -> B -> Prop) l l', length l = length l' ->
    (forall i a b, nth_error l i = Some a -> nth_error l' i = Some b -> R a b) -> Forall2 R l l'.
Proof.
  intros A B R l. induction l as [|e es IH]; intros [|v vs] Hl H; try discriminate; [constructor|].
  constructor; [apply (H 0); reflexivity|]. apply IH; [simpl in Hl; lia|]. intros i. apply (H (S i)).
Qed.

Lemma res_map_ok : forall (A B : Type) (f : A -> res B) l bs, res_map f l = Ok bs ->
    Forall2 (fun a b => f a = Ok b) l bs.
Proof.
  intros A B f l. induction l as [|a l IH]; intros bs H; cbn [res_map] in H.
  - injection H as <-. constructor.
  - destruct (f a) as [b|] eqn:E; [|discriminate]. destruct (res_map f l) as [bs'|]; [|discriminate].
    injection H as <-. constructor; [exact E | apply IH; reflexivity].
Qed.
Lemma at_index_ok : forall (A : Type) (l : list A) i e a, at_index l i e = Ok a -> nth_error l i = Some a.
Proof. intros A l i e a H. unfold at_index in H. destruct (nth_error l i); [injection H as ->; reflexivity | discriminate]. Qed.

Lemma Forall2_nth : forall (A B : Type) (R : A -> B -> Prop) l l' i a, Forall2 R l l' -> nth_error l i = Some a ->
    exists b, nth_error l' i = Some b /\ R a b.
Proof.
  intros A B R l l' i a H. revert i. induction H as [|x y l l' Hxy H IH]; intros [|i] Hi; try discriminate.
  - injection Hi as ->. exists y. split; [reflexivity | exact Hxy].
  - apply IH, Hi.
Qed.
Lemma Forall2_nth' : forall (A B : Type) (R : A -> B -> Prop) l l' i b, Forall2 R l l' -> nth_error l' i = Some b ->
    exists a, nth_error l i = Some a /\ R a b.
Proof.
  intros A B R l l' i b H. revert i. induction H as [|x y l l' Hxy H IH]; intros [|i] Hi; try discriminate.
  - injection Hi as ->. exists x. split; [reflexivity | exact Hxy].
  - apply IH, Hi.
Qed.
Lemma Forall2_trans_l : forall (A B C : Type) (R : A -> B -> Prop) (T : B -> C -> Prop) (U : A -> C -> Prop) l l' l'',
    (forall a b c, R a b -> T b c -> U a c) -> Forall2 R l l' -> Forall2 T l' l'' -> Forall2 U l l''.
Proof.
  intros A B C R T U l l' l'' HU H. revert l''. induction H; intros l'' H'; inversion H'; subst; constructor; eauto.
Qed.
Lemma Forall2_map_l : forall (A A' B : Type) (f : A -> A') (R : A' -> B -> Prop) l l',
    Forall2 R (map f l) l' <-> Forall2 (fun a b => R (f a) b) l l'.
Proof.
  intros A A' B f R l. induction l as [|a l IH]; intros l'; simpl; split; intros H; inversion H; subst; constructor;
    try assumption; apply IH; assumption.
Qed.
Lemma Forall2_flip : forall (A B : Type) (R : A -> B -> Prop) l l', Forall2 R l l' -> Forall2 (fun b a => R a b) l' l.
Proof. intros A B R l l' H. induction H; constructor; assumption. Qed.
Lemma Forall2_In_r : forall (A B : Type) (R : A -> B -> Prop) l l' b, Forall2 R l l' -> In b l' -> exists a, In a l /\ R a b.
Proof.
  intros A B R l l' b H. induction H as [|x y l l' Hxy H IH]; intros Hb; [contradiction|].
  destruct Hb as [->|Hb]; [exists x; split; [left; reflexivity | exact Hxy]|].
  destruct (IH Hb) as [a [Ha Hr]]. exists a. split; [right; exact Ha | exact Hr].
Qed.
Lemma Forall2_In_l : forall (A B : Type) (R : A -> B -> Prop) l l' a, Forall2 R l l' -> In a l -> exists b, In b l' /\ R a b.
Proof.
  intros A B R l l' a H. induction H as [|x y l l' Hxy H IH]; intros Hb; [contradiction|].
  destruct Hb as [->|Hb]; [exists y; split; [left; reflexivity | exact Hxy]|].
  destruct (IH Hb) as [b [Ha Hr]]. exists b. split; [right; exact Ha | exact Hr].
Qed.

(** ** Constraints as conditions *)

(** A constraint row. *)
Record row := mkRow { w_expr : expr; w_lo : ext; w_hi : ext }.
Definition add_rows (s : nlp) (l : list row) : nlp :=
  mkNlp (nx s) (nx_lb s) (nx_ub s)
        (ng s ++ map w_expr l) (ng_lb s ++ map (fun w => BNum (w_lo w)) l)
        (ng_ub s ++ map (fun w => BNum (w_hi w)) l) (np s) (nf s) (nsolver s).
Lemma add_rows_nil : forall s, add_rows s [] = s.
Proof. intros [? ? ? ? ? ? ? ? ?]. unfold add_rows. simpl. rewrite !app_nil_r. reflexivity. Qed.
Lemma add_rows_app : forall s a b, add_rows (add_rows s a) b = add_rows s (a ++ b).
Proof. intros s a b. unfold add_rows. cbn. rewrite !map_app, <- !app_assoc. reflexivity. Qed.

Section Imposes.
  Variables (F : nat -> Q -> Q) (env : sym -> Q).

  Definition row_ok (w : row) : Prop :=
    ext_le (w_lo w) (Fin (eval F env (w_expr w))) /\ ext_le (Fin (eval F env (w_expr w))) (w_hi w).

  (** When the command succeeds it adds [N] rows that hold exactly under [C]. *)
  Definition imposes (c : cmd nlp_state unit) (C : Prop) (N : nat) : Prop :=
    forall n s n' s', c (n, s) = ((n', s'), Ok tt) ->
      s' = s /\ exists l, n' = add_rows n l /\ (Forall row_ok l <-> C) /\ length l = N.

  Lemma imposes_ret : imposes (cret tt) True 0.
  Proof.
    intros n s n' s' H. injection H as <- <-. split; [reflexivity|]. exists []. rewrite add_rows_nil.
    split; [reflexivity|]. split; [split; constructor | reflexivity].
  Qed.
  Lemma imposes_iff : forall c C C' N N', imposes c C N -> (C <-> C') -> N = N' -> imposes c C' N'.
  Proof.
    intros c C C' N N' H HC <- n s n' s' E. destruct (H n s n' s' E) as [H1 [l [H2 [H3 H4]]]].
    split; [exact H1|]. exists l. split; [exact H2|]. split; [rewrite H3; exact HC | exact H4].
  Qed.
  Lemma imposes_res : forall (A : Type) (r : res A) f C N,
      (forall a, r = Ok a -> imposes (f a) C N) -> imposes (cbind (cres r) f) C N.
  Proof.
    intros A r f C N H n s n' s' E. unfold cbind, cres in E. destruct r as [a|e]; [|discriminate].
    exact (H a eq_refl n s n' s' E).
  Qed.
  Lemma imposes_seq : forall c d C D N M, imposes c C N -> imposes d D M ->
      imposes (cbind c (fun _ => d)) (C /\ D) (N + M).
  Proof.
    intros c d C D N M Hc Hd n s n' s' E. unfold cbind in E. destruct (c (n, s)) as [[n1 s1] [[]|e]] eqn:E1; [|discriminate].
    destruct (Hc _ _ _ _ E1) as [-> [l1 [-> [C1 L1]]]]. destruct (Hd _ _ _ _ E) as [-> [l2 [-> [C2 L2]]]].
    split; [reflexivity|]. exists (l1 ++ l2). rewrite add_rows_app. split; [reflexivity|].
    split; [rewrite Forall_app, C1, C2; reflexivity | rewrite app_length; lia].
  Qed.
  Lemma imposes_run : forall (O : Type) (f : O -> cmd nlp_state unit) C N l,
      (forall x, In x l -> imposes (f x) (C x) (N x)) ->
      imposes (crun f l) (forall x, In x l -> C x) (list_sum (map N l)).
  Proof.
    intros O f C N l. induction l as [|a l IH]; intros H.
    - intros n s n' s' E. injection E as <- <-. split; [reflexivity|]. exists []. rewrite add_rows_nil.
      split; [reflexivity|]. split; [split; [intros _ x [] | constructor] | reflexivity].
    - assert (Ha := H a (or_introl eq_refl)). assert (Hl := IH (fun x Hx => H x (or_intror Hx))).
      pose proof (imposes_seq _ _ _ _ _ _ Ha Hl) as Hs.
      assert (E : forall st, crun f (a :: l) st = cbind (f a) (fun _ => crun f l) st) by reflexivity.
      intros n s n' s' E1. rewrite E in E1. destruct (Hs _ _ _ _ E1) as [H1 [r [H2 [H3 H4]]]].
      split; [exact H1|]. exists r. split; [exact H2|]. split; [|exact H4]. rewrite H3. split.
      + intros [A B] x [<-|Hx]; [exact A | apply B, Hx].
      + intros A. split; [apply A; left; reflexivity | intros x Hx; apply A; right; exact Hx].
  Qed.

  Lemma imposes_equality : forall es vs, vals F env es vs ->
      imposes (nlp_equality es) (Forall (fun v => v == 0)%Q vs) (length es).
  Proof.
    intros es vs Hv n s n' s' E. unfold nlp_equality, on_nlp in E. cbn [fst snd] in E.
    destruct (NlpModel.include_equality 1 es None n) as [n1 r] eqn:E1. injection E as -> <- ->. split; [reflexivity|].
    unfold NlpModel.include_equality in E1. cbn [Nat.ltb Nat.leb] in E1.
    destruct (negb _) eqn:Eg; [discriminate|]. destruct (bnds_depend_on _ _); [discriminate|]. injection E1 as <-.
    exists (map (fun e => mkRow e (Fin 0) (Fin 0)) es). split; [|split; [|apply map_length]].
    - unfold add_rows. rewrite !map_map. cbn [w_expr w_lo w_hi]. rewrite map_id.
      assert (Er : repeat (BNum (Fin 0)) (length es) = map (fun _ : expr => BNum (Fin 0)) es).
      { clear. induction es as [|e es IH]; [reflexivity|]. simpl. f_equal. exact IH. }
      rewrite <- Er. reflexivity.
    - rewrite Forall_map. clear Eg. induction Hv as [|e v es vs Hev Hv IH]; [split; constructor|].
      rewrite !Forall_cons_iff, <- IH. unfold row_ok. cbn [w_expr w_lo w_hi ext_le]. rewrite Hev.
      split; intros [A B]; (split; [|exact B]); [lra | split; lra].
  Qed.
  Lemma imposes_upper : forall es vs, vals F env es vs ->
      imposes (nlp_upper_zero es) (Forall (fun v => v <= 0)%Q vs) (length es).
  Proof.
    intros es vs Hv n s n' s' E. unfold nlp_upper_zero, on_nlp in E. cbn [fst snd] in E.
    destruct (NlpModel.include_inequality 1 es None (Some (AInt 0)) n) as [n1 r] eqn:E1. injection E as -> <- ->. split; [reflexivity|].
    unfold NlpModel.include_inequality in E1. cbn [Nat.ltb Nat.leb] in E1.
    destruct (negb (length es =? length (constraint_bound NInf None (length es)))) eqn:E2; [discriminate|].
    destruct (negb (length es =? length (constraint_bound PInf (Some (AInt 0)) (length es)))) eqn:E3; [discriminate|].
    destruct (bnds_depend_on _ _); [discriminate|]. destruct (inequality_loop _ _); [|discriminate]. injection E1 as <-.
    exists (map (fun e => mkRow e NInf (Fin 0)) es). split; [|split; [|apply map_length]].
    - unfold add_rows. rewrite !map_map. cbn [w_expr w_lo w_hi]. rewrite map_id.
      assert (Er : forall b : bnd, repeat b (length es) = map (fun _ : expr => b) es).
      { clear. intros b. induction es as [|e es IH]; [reflexivity|]. simpl. f_equal. exact IH. }
      rewrite <- !Er. cbn [constraint_bound].
      destruct es as [|e es]; [discriminate E3|]. f_equal. f_equal.
      rewrite spread_float by (simpl; lia). reflexivity.
    - rewrite Forall_map. clear E2 E3. induction Hv as [|e v es vs Hev Hv IH]; [split; constructor|].
      rewrite !Forall_cons_iff, <- IH. unfold row_ok. cbn [w_expr w_lo w_hi ext_le]. rewrite Hev. tauto.
  Qed.
  Lemma imposes_between : forall e v lo hi, (eval F env e == v)%Q ->
      imposes (on_nlp (NlpModel.include_inequality 1 [e] (Some (bounds_arg [lo])) (Some (bounds_arg [hi]))))
              (ext_le lo (Fin v) /\ ext_le (Fin v) hi) 1.
  Proof.
    intros e v lo hi Hv n s n' s' E. unfold on_nlp in E. cbn [fst snd] in E.
    destruct (NlpModel.include_inequality _ _ _ _ n) as [n1 r] eqn:E1. injection E as -> <- ->. split; [reflexivity|].
    unfold NlpModel.include_inequality in E1. cbn [Nat.ltb Nat.leb length constraint_bound bounds_arg map spread Nat.eqb andb negb app] in E1.
    destruct (bnds_depend_on _ _); [discriminate|]. destruct (inequality_loop _ _); [|discriminate]. injection E1 as <-.
    exists [mkRow e lo hi]. split; [reflexivity|]. split; [|reflexivity].
    rewrite Forall_cons_iff. unfold row_ok. cbn [w_expr w_lo w_hi].
    assert (A : ext_le lo (Fin (eval F env e)) <-> ext_le lo (Fin v)) by (destruct lo; simpl; try tauto; rewrite Hv; tauto).
    assert (B : ext_le (Fin (eval F env e)) hi <-> ext_le (Fin v) hi) by (destruct hi; simpl; try tauto; rewrite Hv; tauto).
    rewrite A, B. split; [tauto|]. intros H. split; [exact H | constructor].
  Qed.

  Lemma feasible_add_rows : forall n l, length (ng n) = length (ng_lb n) -> length (ng n) = length (ng_ub n) ->
      (feasible F env (add_rows n l) <-> feasible F env n /\ Forall row_ok l).
  Proof.
    intros n l H1 H2. unfold feasible, add_rows. cbn [NlpModel.nx nx_lb nx_ub ng ng_lb ng_ub].
    rewrite map_app, within_app by (rewrite map_length; assumption).
    assert (E : within F env (map (eval F env) (map w_expr l)) (map (fun w => BNum (w_lo w)) l)
                       (map (fun w => BNum (w_hi w)) l) <-> Forall row_ok l).
    { unfold within. split.
      - intros H. apply Forall_forall. intros w Hw. apply In_nth_error in Hw. destruct Hw as [i Hi].
        apply (H i (eval F env (w_expr w)) (BNum (w_lo w)) (BNum (w_hi w)));
          rewrite ?map_map, nth_error_map, Hi; reflexivity.
      - intros H i q lo hi Hq Hlo Hhi. rewrite ?map_map, nth_error_map in Hq. rewrite nth_error_map in Hlo, Hhi.
        destruct (nth_error l i) as [w|] eqn:Ew; [|discriminate]. injection Hq as <-. injection Hlo as <-. injection Hhi as <-.
        rewrite Forall_forall in H. apply (H w). apply (nth_error_In _ _ Ew). }
    rewrite E. tauto.
  Qed.
End Imposes.

(** Lemmas about optimal control problems. *)
From Coq Require Import String.
From Verif Require Import Base BaseProofs UtilModel UtilProofs ExprModel ExprProofs NlpModel SysModel SysSpec
  SysProofs SysCtlProofs SimModel OcpModel OcpSpec.
Local Open Scope list_scope.
Local Open Scope cmd_scope.

Ltac ofields := cbn [
    set_o_t_0 set_o_t_f set_o_x_0 set_o_model set_o_eta set_o_p_opt set_o_theta_opt
    set_o_x_min set_o_x_max set_o_y_min set_o_y_max set_o_u_min set_o_u_max set_o_du_min
    set_o_du_max set_o_p_min set_o_p_max set_o_th_min set_o_th_max set_o_h set_o_h_initial
    set_o_h_final set_o_g_eq set_o_g_ineq set_o_when_eq set_o_when_ineq set_o_L set_o_V
    set_o_S set_o_last_u set_o_y_guess set_o_u_guess set_o_positive set_o_x_cost o_t_0
    o_t_f o_x_0 o_model o_eta o_p_opt o_theta_opt o_x_min o_x_max o_y_min o_y_max o_u_min
    o_u_max o_du_min o_du_max o_p_min o_p_max o_th_min o_th_max o_h o_h_initial o_h_final
    o_g_eq o_g_ineq o_when_eq o_when_ineq o_L o_V o_S o_last_u o_y_guess o_u_guess
    o_positive o_x_cost] in *.

(** ** Variables of the model after a call *)

Definition mvars (m : model) := (m_x m, m_y m, m_u m).

Lemma mv_equations : forall args f x alg m, mvars (fst (include_equations args f x alg m)) = mvars m.
Proof.
  intros. destruct (include_equations_frame args f x alg m) as [H _]. rewrite H. reflexivity.
Qed.

Lemma mv_equations_ok : forall args f x alg m m' r,
    include_equations args f x alg m = (m', r) -> mvars m' = mvars m.
Proof. intros args f x alg m m' r H. pose proof (mv_equations args f x alg m) as E. rewrite H in E. exact E. Qed.

Lemma mv_replace : forall o r m m' x, replace_variable o r m = (m', x) -> mvars m' = mvars m.
Proof.
  intros o r m m' x H. rewrite replace_variable_eq in H.
  destruct (_ =? _)%nat; injection H as <- _; reflexivity.
Qed.

Lemma mv_include_state : forall var f x_0 m m',
    include_state var f x_0 m = (m', Ok tt) -> mvars m' = (m_x m ++ var, m_y m, m_u m).
Proof.
  intros var f x_0 m m' H. apply include_state_ok in H. destruct H as [_ [_ H]].
  destruct f as [f|]; [|subst m'; reflexivity]. apply mv_equations_ok in H. rewrite H. reflexivity.
Qed.

Lemma mv_include_algebraic : forall var alg m m' r,
    include_algebraic var alg m = (m', r) -> mvars m' = (m_x m, m_y m ++ var, m_u m).
Proof.
  intros var alg m m' r H. unfold include_algebraic in H; run_in H. destruct alg as [a|].
  - apply mv_equations_ok in H. rewrite H. reflexivity.
  - injection H as <- _. reflexivity.
Qed.

Lemma mv_include_control : forall var m,
    mvars (fst (include_control var m)) = (m_x m, m_y m, m_u m ++ var) /\ snd (include_control var m) = Ok tt.
Proof. intros; split; reflexivity. Qed.

Lemma mv_remove_control : forall var m m',
    remove_control var m = (m', Ok tt) -> mvars m' = (m_x m, m_y m, filter (not_in var) (m_u m)).
Proof.
  intros var m m' H. unfold remove_control in H; run_in H.
  destruct (remove_variables_from_vector_by_indices _ _) as [a|e]; [|discriminate]. fields.
  destruct (remove_syms_cases var (m_u m)) as [[_ E]|[_ E]]; rewrite E in H; [discriminate|]. fields.
  destruct (remove_syms var (m_u_par m)) as [b|e]; [|discriminate]. injection H as <-. reflexivity.
Qed.

Lemma mv_remove_algebraic : forall same var eq m m',
    remove_algebraic same var eq m = (m', Ok tt) -> mvars m' = (m_x m, filter (not_in var) (m_y m), m_u m).
Proof.
  intros same var eq m m' H. unfold remove_algebraic in H; run_in H.
  destruct (remove_syms_cases var (m_y m)) as [[_ E]|[_ E]]; rewrite E in H; [discriminate|].
  destruct eq as [e|]; [|injection H as <-; reflexivity]. fields.
  destruct (remove_variables_from_vector _ _ _); [|discriminate]. injection H as <-. reflexivity.
Qed.

Lemma mv_parametrize : forall u e up m m', parametrize_control u e up m = (m', Ok tt) -> mvars m' = mvars m.
Proof. intros u e up m m' H. apply parametrize_result in H. subst m'. reflexivity. Qed.

Lemma mv_connect : forall u y r m m',
    connect u y r m = (m', Ok tt) ->
    mvars m' = (m_x m, m_y m ++ (if r then [] else u), filter (not_in u) (m_u m)).
Proof.
  intros u y r m m' H. unfold connect in H.
  apply cbind_ok in H. destruct H as [m1 [[] [H1 H]]].
  assert (m1 = m) as ->. { run_in H1. destruct (negb _); [discriminate|]. injection H1 as <-. reflexivity. }
  apply cbind_ok in H. destruct H as [m2 [[] [H2 H]]].
  apply mv_remove_control in H.
  assert (E : mvars m2 = (m_x m, m_y m ++ (if r then [] else u), m_u m)).
  { destruct r.
    - apply mv_replace in H2. rewrite H2, app_nil_r. reflexivity.
    - apply cbind_ok in H2. destruct H2 as [m3 [[] [H2 H3]]].
      apply mv_equations_ok in H2. apply mv_include_algebraic in H3. unfold mvars in *.
      injection H2 as A B C. rewrite H3, A, B, C. reflexivity. }
  rewrite H. unfold mvars in E. injection E as A B C. rewrite A, B, C. reflexivity.
Qed.

Lemma mv_include_model : forall q m m',
    include_model q m = (m', Ok tt) -> mvars m' = (m_x m ++ m_x q, m_y m ++ m_y q, m_u m ++ m_u q).
Proof.
  intros q m m' H. unfold include_model in H.
  apply cbind_ok in H. destruct H as [m1 [[] [H1 H]]]. apply mv_include_state in H1.
  apply cbind_ok in H. destruct H as [m2 [[] [H2 H]]]. apply mv_include_algebraic in H2.
  apply cbind_ok in H. destruct H as [m3 [[] [H3 H]]]. injection H3 as <-.
  apply cbind_ok in H. destruct H as [m4 [[] [H4 H]]]. injection H4 as <-.
  apply cbind_ok in H. destruct H as [m5 [[] [H5 H]]]. injection H5 as <-.
  apply cbind_ok in H. destruct H as [m6 [[] [H6 H]]]. apply mv_equations_ok in H6.
  apply cbind_ok in H. destruct H as [m7 [[] [H7 H]]]. apply mv_replace in H7. apply mv_replace in H.
  rewrite H, H7, H6. unfold mvars in *. injection H1 as A B C. injection H2 as D E F. fields. congruence.
Qed.

Lemma mv_merge : forall q m m',
    merge [q] None m = (m', Ok tt) -> mvars m' = (m_x m ++ m_x q, m_y m ++ m_y q, m_u m ++ m_u q).
Proof.
  intros q m m' H. unfold merge in H. apply cbind_ok in H. destruct H as [m1 [[] [H1 H]]].
  injection H as <-. unfold include_models in H1. cbn [run_all] in H1.
  destruct (include_model q m) as [m2 [[]|e]] eqn:E; [|discriminate]. injection H1 as <-.
  apply mv_include_model, E.
Qed.

(** ** Tables *)

Definition c11 {A B C : Type} (r : sym * (A * B * C)) : A := fst (fst (snd r)).
Definition c12 {A B C : Type} (r : sym * (A * B * C)) : B := snd (fst (snd r)).
Definition c2 {A B : Type} (r : sym * (A * B)) : B := snd (snd r).
Definition c1 {A B : Type} (r : sym * (A * B)) : A := fst (snd r).

Record rep (t : tables) (o : ocp) : Prop := mkRep
  { r_vars : mvars (o_model o) = (map fst (t_x t), map fst (t_y t), map fst (t_u t));
    r_x_min : o_x_min o = map c11 (t_x t); r_x_max : o_x_max o = map c12 (t_x t);
    r_x_0 : o_x_0 o = map c2 (t_x t);
    r_y_min : o_y_min o = map c1 (t_y t); r_y_max : o_y_max o = map c2 (t_y t);
    r_u_min : o_u_min o = map c11 (t_u t); r_u_max : o_u_max o = map c12 (t_u t);
    r_du_min : o_du_min o = map (fun r => fst (c2 r)) (t_u t);
    r_du_max : o_du_max o = map (fun r => snd (c2 r)) (t_u t);
    r_p : o_p_opt o = map fst (t_p t);
    r_p_min : o_p_min o = map c1 (t_p t); r_p_max : o_p_max o = map c2 (t_p t);
    r_th : o_theta_opt o = map fst (t_th t);
    r_th_min : o_th_min o = map c1 (t_th t); r_th_max : o_th_max o = map c2 (t_th t);
    r_yg : o_y_guess o = option_map (map snd) (t_yg t);
    r_yg_vars : forall g, t_yg t = Some g -> map fst g = map fst (t_y t);
    r_ug : o_u_guess o = option_map (map snd) (t_ug t);
    r_ug_vars : forall g, t_ug t = Some g -> map fst g = map fst (t_u t);
    r_pos : o_positive o = t_pos t }.

Lemma combine_map_fst : forall (A B : Type) (a : list A) (b : list B),
    length b = length a -> map fst (combine a b) = a.
Proof.
  intros A B a; induction a as [|x a IH]; intros [|y b] H; simpl in *; try discriminate; [reflexivity|].
  f_equal. apply IH. lia.
Qed.
Lemma combine_map_snd : forall (A B : Type) (a : list A) (b : list B),
    length b = length a -> map snd (combine a b) = b.
Proof.
  intros A B a; induction a as [|x a IH]; intros [|y b] H; simpl in *; try discriminate; [reflexivity|].
  f_equal. apply IH. lia.
Qed.
Lemma combine_map_snd_f : forall (A B C : Type) (f : B -> C) (a : list A) (b : list B),
    length b = length a -> map (fun r => f (snd r)) (combine a b) = map f b.
Proof. intros A B C f a b H. rewrite <- (combine_map_snd A B a b H) at 2. rewrite map_map. reflexivity. Qed.

Section Columns.
  Context {A B C : Type}.
  Lemma c1_combine : forall v (a : list A) (b : list B),
      length a = length v -> length b = length v -> map c1 (combine v (combine a b)) = a.
  Proof.
    intros v a b H1 H2. unfold c1. rewrite (combine_map_snd_f _ _ _ fst).
    - apply combine_map_fst. congruence.
    - rewrite combine_length. lia.
  Qed.
  Lemma c2_combine : forall v (a : list A) (b : list B),
      length a = length v -> length b = length v -> map c2 (combine v (combine a b)) = b.
  Proof.
    intros v a b H1 H2. unfold c2. rewrite (combine_map_snd_f _ _ _ snd).
    - apply combine_map_snd. congruence.
    - rewrite combine_length. lia.
  Qed.
  Lemma c11_combine : forall v (a : list A) (b : list B) (c : list C),
      length a = length v -> length b = length v -> length c = length v ->
      map c11 (combine v (combine (combine a b) c)) = a.
  Proof.
    intros v a b c H1 H2 H3. unfold c11.
    rewrite (combine_map_snd_f _ _ _ (fun x => fst (fst x))) by (rewrite !combine_length; lia).
    rewrite <- (map_map fst fst). rewrite combine_map_fst by (rewrite combine_length; lia).
    apply combine_map_fst. congruence.
  Qed.
  Lemma c12_combine : forall v (a : list A) (b : list B) (c : list C),
      length a = length v -> length b = length v -> length c = length v ->
      map c12 (combine v (combine (combine a b) c)) = b.
  Proof.
    intros v a b c H1 H2 H3. unfold c12.
    rewrite (combine_map_snd_f _ _ _ (fun x => snd (fst x))) by (rewrite !combine_length; lia).
    rewrite <- (map_map fst snd). rewrite combine_map_fst by (rewrite combine_length; lia).
    apply combine_map_snd. congruence.
  Qed.
End Columns.

Lemma fst_combine3 : forall (B C D : Type) (v : list sym) (a : list B) (b : list C) (c : list D),
    length a = length v -> length b = length v -> length c = length v ->
    map fst (combine v (combine (combine a b) c)) = v.
Proof. intros. apply combine_map_fst. rewrite !combine_length. lia. Qed.
Lemma fst_combine2 : forall (B C : Type) (v : list sym) (a : list B) (b : list C),
    length a = length v -> length b = length v -> map fst (combine v (combine a b)) = v.
Proof. intros. apply combine_map_fst. rewrite !combine_length. lia. Qed.

Lemma rep_aligned : forall t o, rep t o -> aligned o.
Proof.
  intros t o [Hv]. unfold aligned, mvars in *. injection Hv as Hx Hy Hu.
  rewrite Hx, Hy, Hu. repeat match goal with H : _ = _ |- _ => rewrite H; clear H end.
  rewrite !map_length. split; [tauto|]. split; [tauto|]. split; [tauto|]. split; [tauto|]. split; [tauto|].
  split.
  - destruct (t_yg t) as [g|]; simpl; [|exact I]. specialize (r_yg_vars0 g eq_refl).
    apply (f_equal (@length _)) in r_yg_vars0. rewrite !map_length in *. exact r_yg_vars0.
  - destruct (t_ug t) as [g|]; simpl; [|exact I]. specialize (r_ug_vars0 g eq_refl).
    apply (f_equal (@length _)) in r_ug_vars0. rewrite !map_length in *. exact r_ug_vars0.
Qed.

Lemma aligned_rep : forall o, aligned o -> rep (tables_of o) o.
Proof.
  intros o H. unfold aligned in H.
  destruct H as [[X1 [X2 X3]] [[Y1 Y2] [[U1 [U2 [U3 U4]]] [[P1 P2] [[T1 T2] [GY GU]]]]]].
  unfold tables_of. constructor; cbn [t_x t_y t_u t_p t_th t_yg t_ug t_pos].
  - unfold mvars. rewrite !fst_combine3, fst_combine2; rewrite ?combine_length; try lia. reflexivity.
  - rewrite c11_combine; congruence.
  - rewrite c12_combine; congruence.
  - rewrite c2_combine; rewrite ?combine_length; try lia. reflexivity.
  - rewrite c1_combine; congruence.
  - rewrite c2_combine; congruence.
  - rewrite c11_combine; rewrite ?combine_length; try lia. reflexivity.
  - rewrite c12_combine; rewrite ?combine_length; try lia. reflexivity.
  - rewrite <- (map_map c2 fst), c2_combine; rewrite ?combine_length; try lia. rewrite combine_map_fst; congruence.
  - rewrite <- (map_map c2 snd), c2_combine; rewrite ?combine_length; try lia. rewrite combine_map_snd; congruence.
  - rewrite fst_combine2; congruence.
  - rewrite c1_combine; congruence.
  - rewrite c2_combine; congruence.
  - rewrite fst_combine2; congruence.
  - rewrite c1_combine; congruence.
  - rewrite c2_combine; congruence.
  - destruct (o_y_guess o) as [g|]; simpl in *; [|reflexivity]. f_equal. symmetry. apply combine_map_snd, GY.
  - intros g Hg. destruct (o_y_guess o) as [g'|]; simpl in *; [|discriminate]. injection Hg as <-.
    rewrite combine_map_fst by exact GY. rewrite fst_combine2; congruence.
  - destruct (o_u_guess o) as [g|]; simpl in *; [|reflexivity]. f_equal. symmetry. apply combine_map_snd, GU.
  - intros g Hg. destruct (o_u_guess o) as [g'|]; simpl in *; [|discriminate]. injection Hg as <-.
    rewrite combine_map_fst by exact GU. rewrite fst_combine3; rewrite ?combine_length; try lia. reflexivity.
  - reflexivity.
Qed.

Lemma combine_columns2 : forall (A B : Type) (t : list (sym * (A * B))),
    combine (map fst t) (combine (map c1 t) (map c2 t)) = t.
Proof. intros A B t; induction t as [|[a [b c]] t IH]; simpl; [reflexivity | f_equal; exact IH]. Qed.
Lemma combine_columns3 : forall (A B C : Type) (t : list (sym * (A * B * C))),
    combine (map fst t) (combine (combine (map c11 t) (map c12 t)) (map c2 t)) = t.
Proof. intros A B C t; induction t as [|[a [[b c] d]] t IH]; simpl; [reflexivity | f_equal; exact IH]. Qed.
Lemma combine_columns4 : forall (A B C D : Type) (t : list (sym * (A * B * (C * D)))),
    combine (map fst t) (combine (combine (map c11 t) (map c12 t))
       (combine (map (fun r => fst (c2 r)) t) (map (fun r => snd (c2 r)) t))) = t.
Proof. intros A B C D t; induction t as [|[a [[b c] [d e]]] t IH]; simpl; [reflexivity | f_equal; exact IH]. Qed.
Lemma combine_fst_snd' : forall (A B : Type) (l : list (A * B)), combine (map fst l) (map snd l) = l.
Proof. intros A B l; induction l as [|[a b] l IH]; simpl; [reflexivity | f_equal; exact IH]. Qed.

Lemma rep_tables : forall t o, rep t o -> t = tables_of o.
Proof.
  intros t o [Hv]. unfold tables_of, mvars in *. injection Hv as Hx Hy Hu.
  rewrite Hx, Hy, Hu. repeat match goal with H : _ o = _ |- _ => rewrite H; clear H end.
  rewrite combine_columns3, combine_columns4, !combine_columns2.
  destruct t as [tx ty tu tp tth tyg tug tpos]; cbn [t_x t_y t_u t_p t_th t_yg t_ug t_pos] in *. f_equal.
  - destruct tyg as [g|]; simpl; [|reflexivity]. rewrite <- (r_yg_vars0 g eq_refl), combine_fst_snd'. reflexivity.
  - destruct tug as [g|]; simpl; [|reflexivity]. rewrite <- (r_ug_vars0 g eq_refl), combine_fst_snd'. reflexivity.
Qed.

(** Removing and selecting rows by the positions of variables. *)
Lemma remove_rows : forall (B A : Type) (f : B -> A) var (t : list (sym * B)) idx,
    (forall i, In i idx <-> In i (find_syms var (map fst t))) ->
    remove_at idx (map (fun r => f (snd r)) t) = Ok (map (fun r => f (snd r)) (rows_except var t)).
Proof.
  intros B A f var t idx Hidx. unfold remove_at.
  destruct (remove_variables_from_vector_by_indices (map Z.of_nat idx) (map (fun r => f (snd r)) t)) as [r|e] eqn:E.
  - f_equal. apply remove_by_indices_form in E. subst r. rewrite map_length.
    set (g := fun ind => negb (memb Z.eqb (Z.of_nat ind) (map Z.of_nat idx))).
    transitivity (map (fun r : sym * B => f (snd r)) (gather t (filter g (seq 0 (length t))))).
    + unfold gather. generalize (filter g (seq 0 (length t))). intros l. induction l as [|i l IH]; simpl; [reflexivity|].
      rewrite IH, map_app. f_equal. rewrite nth_error_map. destruct (nth_error t i); reflexivity.
    + f_equal. unfold rows_except. apply gather_filter_elements. intros i [c b] Hi. unfold g. cbn [fst].
      rewrite not_in_memb. f_equal. apply eq_true_iff_eq. rewrite memb_Z, (memb_spec _ _ sym_eqb_eq), in_map_iff.
      assert (Hc : nth_error (map fst t) i = Some c) by (rewrite nth_error_map, Hi; reflexivity). split.
      * intros [j [Hj Hin]]. apply Nat2Z.inj in Hj. subst j. apply Hidx in Hin.
        apply (find_indices_In _ sym_eqb_eq) in Hin. destruct Hin as [v [Hv Hn]]. congruence.
      * intros Hin. exists i. split; [reflexivity|]. apply Hidx. apply (find_indices_In _ sym_eqb_eq).
        exists c. split; assumption.
  - exfalso. assert (Hx : exists e, remove_variables_from_vector_by_indices (map Z.of_nat idx)
                                      (map (fun r : sym * B => f (snd r)) t) = Raise e) by (exists e; exact E).
    apply remove_by_indices_error in Hx. destruct Hx as [i [Hi Hb]].
    apply in_map_iff in Hi. destruct Hi as [j [<- Hj]]. apply Hidx in Hj.
    apply (find_indices_In _ sym_eqb_eq) in Hj. destruct Hj as [v [_ Hn]].
    assert (j < length (map fst t))%nat by (apply nth_error_Some; congruence). rewrite map_length in *. lia.
Qed.

Lemma rows_except_fst : forall (B : Type) var (t : list (sym * B)),
    map fst (rows_except var t) = filter (not_in var) (map fst t).
Proof.
  intros B var t. unfold rows_except. induction t as [|[c b] t IH]; simpl; [reflexivity|].
  destruct (not_in var c); simpl; [f_equal|]; exact IH.
Qed.

Lemma gather_map : forall (A B : Type) (f : A -> B) l idx, gather (map f l) idx = map f (gather l idx).
Proof.
  intros A B f l idx. unfold gather. induction idx as [|i idx IH]; simpl; [reflexivity|].
  rewrite IH, map_app, nth_error_map. destruct (nth_error l i); reflexivity.
Qed.

Lemma gather_app : forall (A : Type) (l : list A) i j, gather l (i ++ j) = gather l i ++ gather l j.
Proof. intros. unfold gather. apply flat_map_app. Qed.

Lemma gather_find_one : forall (B : Type) c (t : list (sym * B)) pre,
    gather (pre ++ t) (map fst (filter (fun iw => sym_eqb (snd iw) c)
                       (combine (seq (length pre) (length t)) (map fst t)))) =
    filter (fun r => Nat.eqb (fst r) c) t.
Proof.
  intros B c t; induction t as [|[a b] t IH]; intros pre; [reflexivity|]. simpl.
  specialize (IH (pre ++ [(a, b)])). rewrite app_length in IH. simpl in IH. rewrite Nat.add_1_r, <- app_assoc in IH. simpl in IH.
  unfold sym_eqb at 1. destruct (a =? c)%nat eqn:E.
  - simpl. rewrite nth_error_app2 by lia. rewrite Nat.sub_diag. simpl. f_equal. exact IH.
  - exact IH.
Qed.

Lemma gather_find : forall (B : Type) cs (t : list (sym * B)),
    gather t (find_syms cs (map fst t)) = rows_of cs t.
Proof.
  intros B cs t. unfold find_syms, find_variables_indices_in_vector, rows_of, enumerate. rewrite map_length.
  induction cs as [|c cs IH]; simpl; [reflexivity|]. rewrite gather_app, IH. f_equal.
  exact (gather_find_one B c t []).
Qed.

Lemma index_rows : forall (B A : Type) (f : B -> A) cs (t : list (sym * B)),
    index_vec (map (fun r => f (snd r)) t) (find_syms cs (map fst t)) =
    Ok (map (fun r => f (snd r)) (rows_of cs t)).
Proof.
  intros B A f cs t. unfold index_vec.
  assert (E : forallb (fun i => (i <? length (map (fun r : sym * B => f (snd r)) t))%nat)
                      (find_syms cs (map fst t)) = true).
  { apply forallb_forall. intros i Hi. apply (find_indices_In _ sym_eqb_eq) in Hi. destruct Hi as [v [_ Hn]].
    apply Nat.ltb_lt. rewrite map_length. rewrite <- (map_length fst t). apply nth_error_Some. congruence. }
  rewrite E, gather_map, gather_find. reflexivity.
Qed.

Lemma rows_of_fst : forall (B : Type) cs (t : list (sym * B)),
    (forall c, In c cs -> length (rows_of [c] t) = 1%nat) -> map fst (rows_of cs t) = cs.
Proof.
  intros B cs t. unfold rows_of. induction cs as [|c cs IH]; intros H; simpl; [reflexivity|].
  assert (IH' := IH (fun c' Hc => H c' (or_intror Hc))). clear IH.
  specialize (H c (or_introl eq_refl)). simpl in H. rewrite app_nil_r in H.
  rewrite map_app. change (c :: cs) with ([c] ++ cs). f_equal; [|exact IH'].
  destruct (filter (fun r : nat * B => (fst r =? c)%nat) t) as [|[a b] [|]] eqn:E; try discriminate. simpl.
  assert (Hin : In (a, b) (filter (fun r => (fst r =? c)%nat) t)) by (rewrite E; left; reflexivity).
  apply filter_In in Hin. destruct Hin as [_ Hin]. apply Nat.eqb_eq in Hin. simpl in Hin. subst. reflexivity.
Qed.

(** Same number of rows for a variable in two tables of the same variables. *)
Lemma rows_of_same_count : forall (B D : Type) cs (t : list (sym * B)) (t' : list (sym * D)),
    map fst t = map fst t' -> map fst (rows_of cs t) = map fst (rows_of cs t').
Proof.
  intros B D cs t t' H. rewrite <- !gather_find, <- !gather_map, H. reflexivity.
Qed.

(** ** Running commands *)

Lemma cguard_ok : forall S (bad : S -> bool) e s s' u,
    cguard bad e s = (s', Ok u) -> s' = s /\ bad s = false.
Proof. intros S bad e s s' u H. unfold cguard in H. destruct (bad s); [discriminate|]. injection H as <- _. auto. Qed.
Lemma cset_ok : forall S A (r : S -> res A) put s s' u,
    cset r put s = (s', Ok u) -> exists a, r s = Ok a /\ s' = put a s.
Proof.
  intros S A r put s s' u H. unfold cset in H. destruct (r s) as [a|]; [|discriminate].
  injection H as <- _. exists a. auto.
Qed.
Lemma on_model_ok : forall A (c : cmd model A) o o' u,
    on_model c o = (o', Ok u) -> exists m', c (o_model o) = (m', Ok u) /\ o' = set_o_model m' o.
Proof.
  intros A c o o' u H. unfold on_model in H. destruct (c (o_model o)) as [m r]. injection H as <- ->.
  exists m. auto.
Qed.

Ltac next H := let o1 := fresh "o1" in let H1 := fresh "H1" in
  apply cbind_ok in H; destruct H as [o1 [[] [H1 H]]].
Ltac grd H := let o1 := fresh "o1" in let H1 := fresh "H1" in let G := fresh "G" in
  apply cbind_ok in H; destruct H as [o1 [[] [H1 H]]]; apply cguard_ok in H1; destruct H1 as [-> G].
Ltac modify H := let o1 := fresh "o1" in let H1 := fresh "H1" in
  apply cbind_ok in H; destruct H as [o1 [[] [H1 H]]]; injection H1 as <-.
(** The same without substituting the new state, which is mentioned several times. *)
Lemma cmodify_ok : forall S (f : S -> S) s s' u, cmodify f s = (s', Ok u) -> s' = f s.
Proof. intros S f s s' u H. injection H as <-. reflexivity. Qed.
Ltac modk H := let o1 := fresh "o" in let E := fresh "E" in
  apply cbind_ok in H; destruct H as [o1 [[] [E H]]]; apply cmodify_ok in E; cbv beta in E.
Ltac setk H := let o1 := fresh "o" in let E := fresh "E" in let v := fresh "v" in
  apply cbind_ok in H; destruct H as [o1 [[] [E H]]]; apply cset_ok in E; destruct E as [v [_ E]].
Ltac gfields := cbn [
    set_o_t_0 set_o_t_f set_o_x_0 set_o_model set_o_eta set_o_p_opt set_o_theta_opt
    set_o_x_min set_o_x_max set_o_y_min set_o_y_max set_o_u_min set_o_u_max set_o_du_min
    set_o_du_max set_o_p_min set_o_p_max set_o_th_min set_o_th_max set_o_h set_o_h_initial
    set_o_h_final set_o_g_eq set_o_g_ineq set_o_when_eq set_o_when_ineq set_o_L set_o_V
    set_o_S set_o_last_u set_o_y_guess set_o_u_guess set_o_positive set_o_x_cost o_t_0
    o_t_f o_x_0 o_model o_eta o_p_opt o_theta_opt o_x_min o_x_max o_y_min o_y_max o_u_min
    o_u_max o_du_min o_du_max o_p_min o_p_max o_th_min o_th_max o_h o_h_initial o_h_final
    o_g_eq o_g_ineq o_when_eq o_when_ineq o_L o_V o_S o_last_u o_y_guess o_u_guess
    o_positive o_x_cost].
Ltac back := repeat match goal with
  | E : ?o = _ |- context [?f ?o] =>
      match type of f with ocp -> _ => rewrite E; gfields end
  end.
Ltac eqlen := repeat match goal with
  | H : negb (_ =? _)%nat = false |- _ => apply negb_false_iff, Nat.eqb_eq in H
  end.

(** Appending rows. *)
Lemma map_app_rows : forall (B A : Type) (f : sym * B -> A) t var (cols : list B) (new : list A),
    map f (combine var cols) = new -> map f (t ++ combine var cols) = map f t ++ new.
Proof. intros. rewrite map_app. congruence. Qed.

Ltac tcols := unfold table_effect, add_x, add_p, add_th; cbn [t_x t_y t_u t_p t_th t_yg t_ug t_pos].
Ltac keep R := destruct R; constructor; ofields; try assumption.

Lemma rep_model : forall t o m, rep t o -> mvars m = mvars (o_model o) -> rep t (set_o_model m o).
Proof. intros t o m R E. keep R. rewrite E. assumption. Qed.

Lemma state_bound_short : forall a d b,
    short_list a -> state_bound a d = Ok b ->
    fst b = 1%nat /\ snd b = match bound_given a with Some v => v | None => d end.
Proof.
  intros a d b Hs H. destruct a as [|v|l]; simpl in *.
  - injection H as <-; auto.
  - injection H as <-; auto.
  - destruct l as [|v [|w l]]; simpl in *; [| |lia].
    + injection H as <-; auto.
    + destruct v; injection H as <-; auto.
Qed.

Lemma or_zeros_len : forall a n, (match a with Some v => negb (n =? length v)%nat | None => false end) = false ->
    length (or_zeros a n) = n.
Proof.
  intros [v|] n H; simpl; [|apply repeat_length]. eqlen. congruence.
Qed.

Lemma rep_include_state : forall t o o' var ode x_0 lo hi h s b,
    rep t o -> short_list lo -> short_list hi ->
    ocp_include_state var ode x_0 lo hi h s b o = (o', Ok tt) ->
    rep (table_effect (PIncludeState var ode x_0 lo hi h s b) t) o'.
Proof.
  intros t o o' var ode x_0 lo hi h s b R Hlo Hhi H. unfold ocp_include_state in H.
  grd H. destruct (state_bound lo _) as [blo|] eqn:Elo; [|discriminate].
  destruct (state_bound hi _) as [bhi|] eqn:Ehi; [|discriminate].
  apply state_bound_short in Elo; [|assumption]. apply state_bound_short in Ehi; [|assumption].
  destruct Elo as [Clo Elo], Ehi as [Chi Ehi].
  grd H. grd H. grd H. next H. apply on_model_ok in H1. destruct H1 as [m' [Hm ->]].
  apply mv_include_state in Hm. modify H. next H.
  assert (K : exists hs, o1 = set_o_h_initial hs (set_o_x_0 (o_x_0 o ++ or_zeros x_0 (length var)) (set_o_model m' o)) \/
                         o1 = set_o_x_0 (o_x_0 o ++ or_zeros x_0 (length var)) (set_o_model m' o)).
  { destruct x_0 as [v|].
    - apply cset_ok in H1. destruct H1 as [a [_ ->]]. exists a. left. reflexivity.
    - destruct h as [h|]; injection H1 as <-; [eexists; left; reflexivity|exists []; right; reflexivity]. }
  clear H1. next H. apply cset_ok in H1. destruct H1 as [a [Ha ->]].
  apply cset_ok in H. destruct H as [c [Hc ->]].
  unfold vertcat_cols in *. rewrite Clo in Ha. rewrite Chi in Hc. simpl in Ha, Hc.
  injection Ha as <-. injection Hc as <-. eqlen. apply or_zeros_len in G2.
  change (match bound_given lo with Some v => v | None => neg_inf (length var) end)
    with (lower (bound_given lo) (length var)) in Elo.
  change (match bound_given hi with Some v => v | None => pos_inf (length var) end)
    with (upper (bound_given hi) (length var)) in Ehi.
  rewrite Elo, Ehi in *.
  destruct K as [hs [-> | ->]]; destruct R; constructor; ofields; tcols; try assumption.
  all: try (symmetry; rewrite (map_app_rows _ _ _ _ _ _ _ (c11_combine _ _ _ _ (eq_sym G1) (eq_sym G0) G2)); congruence).
  all: try (symmetry; rewrite (map_app_rows _ _ _ _ _ _ _ (c12_combine _ _ _ _ (eq_sym G1) (eq_sym G0) G2)); congruence).
  all: try (symmetry; erewrite map_app_rows; [|apply c2_combine; rewrite ?combine_length; lia]; congruence).
  all: rewrite Hm; unfold mvars in r_vars0; injection r_vars0 as A B C; rewrite A, B, C;
       erewrite map_app_rows by (apply fst_combine3; [symmetry; exact G1 | symmetry; exact G0 | exact G2]); reflexivity.
Qed.

Lemma rep_cost_state : forall t o o' x_c x_c0,
    rep t o -> create_cost_state x_c x_c0 o = (o', Ok tt) -> rep (table_effect (PCreateCostState x_c x_c0) t) o'.
Proof.
  intros t o o' x_c x_c0 R H. unfold create_cost_state in H. next H. injection H as <-.
  apply (rep_include_state t) in H1; [|assumption|exact I|exact I]. rewrite (r_pos _ _ R) in H1.
  destruct H1. constructor; ofields; assumption.
Qed.

Lemma map_combine_snd_id : forall (A : Type) (var : list sym) (g : list A), length g = length var -> map snd (combine var g) = g.
Proof. intros. apply combine_map_snd. assumption. Qed.

Lemma rep_include_algebraic : forall t o o' var alg lo hi g,
    rep t o -> (match g with Some g => t_yg t <> None -> length g = length var | None => True end) ->
    ocp_include_algebraic var alg lo hi g o = (o', Ok tt) ->
    rep (table_effect (PIncludeAlgebraic var alg lo hi g) t) o'.
Proof.
  intros t o o' var alg lo hi g R Hg H. unfold ocp_include_algebraic in H.
  grd H. grd H. modify H. next H. apply on_model_ok in H1. destruct H1 as [m' [Hm ->]].
  apply mv_include_algebraic in Hm. modify H. injection H as <-. eqlen.
  change (given lo (neg_inf (length var))) with (lower lo (length var)) in *.
  change (given hi (pos_inf (length var))) with (upper hi (length var)) in *.
  assert (Em : o_model (match o_y_guess o with
               | Some g0 => set_o_y_guess (Some (g0 ++ match g with Some v => v | None => repeat 0%Q (length var) end)) o
               | None => o end) = o_model o) by (destruct (o_y_guess o); reflexivity).
  rewrite Em in Hm. clear Em.
  assert (Hz : t_yg t <> None -> length (or_zeros g (length var)) = length var).
  { destruct g as [g|]; simpl; [exact Hg|]. intros _. apply repeat_length. }
  pose proof R as R'.
  destruct R'. unfold mvars in r_vars0. injection r_vars0 as A B C. rewrite A, B, C in Hm.
  rewrite r_yg0 in *.
  destruct (t_yg t) as [gy|] eqn:Eg; cbn [option_map] in *.
  - specialize (Hz ltac:(discriminate)). constructor; ofields; tcols; rewrite ?Eg; cbn [option_map]; try assumption.
    + rewrite Hm, (map_app_rows _ _ _ _ _ _ _ (fst_combine2 _ _ _ _ _ (eq_sym G) (eq_sym G0))). reflexivity.
    + rewrite (map_app_rows _ _ _ _ _ _ _ (c1_combine _ _ _ (eq_sym G) (eq_sym G0))). congruence.
    + rewrite (map_app_rows _ _ _ _ _ _ _ (c2_combine _ _ _ (eq_sym G) (eq_sym G0))). congruence.
    + rewrite map_app, map_combine_snd_id by exact Hz. reflexivity.
    + intros g0 H. injection H as <-. rewrite !map_app, (r_yg_vars0 gy eq_refl), combine_map_fst by exact Hz.
      rewrite fst_combine2 by congruence. reflexivity.
  - constructor; ofields; tcols; rewrite ?Eg; cbn [option_map]; try assumption.
    + rewrite Hm, (map_app_rows _ _ _ _ _ _ _ (fst_combine2 _ _ _ _ _ (eq_sym G) (eq_sym G0))). reflexivity.
    + rewrite (map_app_rows _ _ _ _ _ _ _ (c1_combine _ _ _ (eq_sym G) (eq_sym G0))). congruence.
    + rewrite (map_app_rows _ _ _ _ _ _ _ (c2_combine _ _ _ (eq_sym G) (eq_sym G0))). congruence.
    + intros g0 H. discriminate.
Qed.

Lemma broadcast_each : forall a n, n = length (broadcast a n) -> broadcast a n = for_each a n.
Proof.
  intros a n H. destruct a as [|v [|w l]]; simpl in *; try reflexivity.
  destruct n as [|[|n]]; simpl in *; [discriminate|reflexivity|reflexivity].
Qed.

Lemma map_fst_nil : forall (B : Type) (t : list (sym * B)), (length (map fst t) =? 0)%nat = match t with [] => true | _ => false end.
Proof. intros B [|]; reflexivity. Qed.

Lemma rep_include_control : forall t o o' var lo hi dlo dhi g,
    rep t o -> ocp_include_control var lo hi dlo dhi g o = (o', Ok tt) ->
    rep (table_effect (PIncludeControl var lo hi dlo dhi g) t) o'.
Proof.
  intros t o o' var lo hi dlo dhi g R H. unfold ocp_include_control in H.
  grd H. grd H. grd H. grd H. grd H. grd H. modify H. modify H. modify H. modify H. modify H.
  apply on_model_ok in H. destruct H as [m' [Hm ->]]. eqlen.
  pose proof (broadcast_each _ _ G0) as B0. pose proof (broadcast_each _ _ G1) as B1.
  pose proof (broadcast_each _ _ G2) as B2. pose proof (broadcast_each _ _ G3) as B3.
  rewrite B0, B1, B2, B3 in *. clear B0 B1 B2 B3.
  change (given lo (neg_inf (length var))) with (lower lo (length var)) in *.
  change (given dlo (neg_inf (length var))) with (lower dlo (length var)) in *.
  change (given hi (pos_inf (length var))) with (upper hi (length var)) in *.
  change (given dhi (pos_inf (length var))) with (upper dhi (length var)) in *.
  set (a := for_each (lower lo (length var)) (length var)) in *.
  set (b := for_each (upper hi (length var)) (length var)) in *.
  set (c := for_each (lower dlo (length var)) (length var)) in *.
  set (d := for_each (upper dhi (length var)) (length var)) in *.
  pose proof R as R'. destruct R'. unfold mvars in r_vars0. injection r_vars0 as A B C.
  assert (Em : forall g', mvars (fst (include_control var g')) = (m_x g', m_y g', m_u g' ++ var))
    by (intros g'; apply mv_include_control).
  set (o2 := set_o_du_max _ _) in *.
  assert (E2 : exists ug, (match g with
     | Some g => if (length (m_u (o_model o)) =? 0)%nat then set_o_u_guess (Some g) o2
                 else match o_u_guess o with Some g' => set_o_u_guess (Some (g' ++ g)) o2 | None => o2 end
     | None => o2 end) = set_o_u_guess (option_map (map snd) ug) o2 /\
     ug = t_ug (table_effect (PIncludeControl var lo hi dlo dhi g) t) /\
     (forall l, ug = Some l -> map fst l = map fst (t_u t) ++ var)).
  { assert (Hu2 : o_u_guess o2 = option_map (map snd) (t_ug t)) by exact r_ug0.
    assert (Hid : o2 = set_o_u_guess (option_map (map snd) (t_ug t)) o2).
    { rewrite <- Hu2. clearbody o2. destruct o2. reflexivity. }
    assert (Hn : (length (m_u (o_model o)) =? 0)%nat = match t_u t with [] => true | _ => false end).
    { rewrite C. apply map_fst_nil. }
    rewrite Hn, r_ug0. clear Hn Hu2. tcols. clearbody o2.
    destruct g as [g|].
    - eqlen. destruct (t_u t) as [|r rs] eqn:Eu.
      + exists (Some (combine var g)). cbn [option_map]. rewrite map_combine_snd_id by congruence.
        split; [reflexivity|]. split; [reflexivity|]. intros l Hl. injection Hl as <-.
        rewrite combine_map_fst by congruence. reflexivity.
      + destruct (t_ug t) as [gu|] eqn:Eg; cbn [option_map] in *.
        * exists (Some (gu ++ combine var g)). cbn [option_map]. rewrite map_app, map_combine_snd_id by congruence.
          split; [reflexivity|]. split; [reflexivity|]. intros l Hl. injection Hl as <-.
          rewrite map_app, combine_map_fst, (r_ug_vars0 gu eq_refl) by congruence. reflexivity.
        * exists None. split; [exact Hid|]. split; [reflexivity|]. intros l Hl. discriminate.
    - rewrite r_ug0 in G. destruct (t_ug t) as [gu|] eqn:Eg; [discriminate|].
      exists None. split; [exact Hid|]. split; [reflexivity|]. intros l Hl. discriminate. }
  destruct E2 as [ug [Eo [Eug Hug]]]. rewrite Eo in Hm |- *. clear Eo.
  assert (Em' : mvars m' = (m_x (o_model o), m_y (o_model o), m_u (o_model o) ++ var)).
  { specialize (Em (o_model o)). change (o_model (set_o_u_guess (option_map (map snd) ug) o2)) with (o_model o) in Hm.
    rewrite Hm in Em. exact Em. }
  assert (La : length a = length var) by congruence. assert (Lb : length b = length var) by congruence.
  assert (Lc : length c = length var) by congruence. assert (Ld : length d = length var) by congruence.
  assert (Lcd : length (combine c d) = length var) by (rewrite combine_length; lia).
  assert (Fu : map fst (t_u t ++ combine var (combine (combine a b) (combine c d))) = map fst (t_u t) ++ var).
  { rewrite map_app, fst_combine3 by assumption. reflexivity. }
  subst o2. tcols. constructor; ofields; tcols; fold a b c d; try assumption.
  - rewrite Em', A, B, C, Fu. reflexivity.
  - rewrite (map_app_rows _ _ _ _ _ _ _ (c11_combine _ _ _ _ La Lb Lcd)). congruence.
  - rewrite (map_app_rows _ _ _ _ _ _ _ (c12_combine _ _ _ _ La Lb Lcd)). congruence.
  - rewrite map_app, <- (map_map c2 fst (combine var _)).
    rewrite c2_combine by (rewrite ?combine_length; lia). rewrite combine_map_fst; congruence.
  - rewrite map_app, <- (map_map c2 snd (combine var _)).
    rewrite c2_combine by (rewrite ?combine_length; lia). rewrite combine_map_snd; congruence.
  - rewrite Eug. reflexivity.
  - intros g0 Hg0. rewrite Fu. apply Hug. rewrite Eug. exact Hg0.
Qed.

Lemma rows_except_option_fst : forall var (g : option (list (sym * Q))) (B : Type) (t : list (sym * B)),
    (forall l, g = Some l -> map fst l = map fst t) ->
    forall l, option_map (rows_except var) g = Some l -> map fst l = map fst (rows_except var t).
Proof.
  intros var g B t H l Hl. destruct g as [g|]; [|discriminate]. injection Hl as <-.
  rewrite !rows_except_fst, (H g eq_refl). reflexivity.
Qed.

Lemma remove_guess : forall var (g : list (sym * Q)) vars idx v,
    map fst g = vars -> (forall i, In i idx <-> In i (find_syms var vars)) ->
    match remove_at idx (map snd g) with Ok v => Ok (Some v) | Raise e => Raise e end = Ok v ->
    v = option_map (map snd) (option_map (rows_except var) (Some g)).
Proof.
  intros var g vars idx v Hv Hi H.
  assert (E : remove_at idx (map snd g) = Ok (map snd (rows_except var g))).
  { apply (remove_rows Q Q (fun x => x)). rewrite Hv. exact Hi. }
  rewrite E in H. injection H as <-. reflexivity.
Qed.

Lemma remove_col : forall (B A : Type) (f : sym * B -> A) (h : B -> A) var (t : list (sym * B)) vars idx col r,
    (forall x, f x = h (snd x)) -> map fst t = vars -> col = map f t ->
    (forall i, In i idx <-> In i (find_syms var vars)) ->
    remove_at idx col = Ok r -> r = map f (rows_except var t).
Proof.
  intros B A f h var t vars idx col r Hf Hv -> Hi H.
  rewrite (map_ext _ _ Hf) in *. rewrite (remove_rows B A h var t) in H; [congruence|]. rewrite Hv. exact Hi.
Qed.

Lemma rep_remove_algebraic : forall same t o o' var eq,
    rep t o -> ocp_remove_algebraic same var eq o = (o', Ok tt) ->
    rep (table_effect (PRemoveAlgebraic var eq) t) o'.
Proof.
  intros same t o o' var eq R H. unfold ocp_remove_algebraic in H.
  pose proof R as R'. destruct R'. unfold mvars in r_vars0. injection r_vars0 as A B C.
  assert (Hi : forall i, In i (rev (find_syms var (m_y (o_model o)))) <-> In i (find_syms var (map fst (t_y t)))).
  { intros i. rewrite <- in_rev, B. tauto. }
  next H. apply cset_ok in H1. destruct H1 as [a [Ha ->]].
  next H. apply cset_ok in H1. destruct H1 as [b [Hb ->]]. ofields.
  apply (remove_col _ _ _ snd _ (t_y t) _ _ _ _ (fun _ => eq_refl) eq_refl r_y_max0 Hi) in Ha.
  apply (remove_col _ _ _ fst _ (t_y t) _ _ _ _ (fun _ => eq_refl) eq_refl r_y_min0 Hi) in Hb.
  next H. apply on_model_ok in H. destruct H as [m' [Hm ->]]. apply mv_remove_algebraic in Hm.
  assert (K : o_model o1 = o_model o /\ o1 = set_o_y_guess (option_map (map snd) (option_map (rows_except var) (t_yg t)))
               (set_o_y_min b (set_o_y_max a o))).
  { rewrite r_yg0 in H1. destruct (t_yg t) as [g|] eqn:Eg; cbn [option_map] in H1.
    - apply cset_ok in H1. destruct H1 as [v [Hv ->]]. split; [reflexivity|]. f_equal.
      exact (remove_guess _ _ _ _ _ (r_yg_vars0 g eq_refl) Hi Hv).
    - injection H1 as <-. split; [reflexivity|]. cbn [option_map].
      unfold set_o_y_guess. ofields. cbn [option_map] in r_yg0. rewrite <- r_yg0. reflexivity. }
  destruct K as [Km ->]. rewrite Km, A, B, C in Hm. clear H1 Km.
  constructor; ofields; tcols; try assumption.
  - rewrite Hm, rows_except_fst. reflexivity.
  - reflexivity.
  - exact (rows_except_option_fst var _ _ _ r_yg_vars0).
Qed.

Lemma rep_remove_control : forall t o o' var,
    rep t o -> ocp_remove_control var o = (o', Ok tt) ->
    rep (table_effect (PRemoveControl var) t) o'.
Proof.
  intros t o o' var R H. unfold ocp_remove_control in H.
  pose proof R as R'. destruct R'. unfold mvars in r_vars0. injection r_vars0 as A B C.
  assert (Hi : forall i, In i (find_syms var (m_u (o_model o))) <-> In i (find_syms var (map fst (t_u t)))).
  { intros i. rewrite C. tauto. }
  next H. apply cset_ok in H1. destruct H1 as [a [Ha ->]].
  next H. apply cset_ok in H1. destruct H1 as [b [Hb ->]].
  next H. apply cset_ok in H1. destruct H1 as [c [Hc ->]].
  next H. apply cset_ok in H1. destruct H1 as [d [Hd ->]]. ofields.
  apply (remove_col _ _ _ (fun x => snd (fst x)) _ (t_u t) _ _ _ _ (fun _ => eq_refl) eq_refl r_u_max0 Hi) in Ha.
  apply (remove_col _ _ _ (fun x => fst (fst x)) _ (t_u t) _ _ _ _ (fun _ => eq_refl) eq_refl r_u_min0 Hi) in Hb.
  apply (remove_col _ _ _ (fun x => snd (snd x)) _ (t_u t) _ _ _ _ (fun _ => eq_refl) eq_refl r_du_max0 Hi) in Hc.
  apply (remove_col _ _ _ (fun x => fst (snd x)) _ (t_u t) _ _ _ _ (fun _ => eq_refl) eq_refl r_du_min0 Hi) in Hd.
  next H. apply on_model_ok in H. destruct H as [m' [Hm ->]]. apply mv_remove_control in Hm.
  assert (K : o_model o1 = o_model o /\ o1 = set_o_u_guess (option_map (map snd) (option_map (rows_except var) (t_ug t)))
               (set_o_du_min d (set_o_du_max c (set_o_u_min b (set_o_u_max a o))))).
  { rewrite r_ug0 in H1. destruct (t_ug t) as [g|] eqn:Eg; cbn [option_map] in H1.
    - apply cset_ok in H1. destruct H1 as [v [Hv ->]]. split; [reflexivity|]. f_equal.
      exact (remove_guess _ _ _ _ _ (r_ug_vars0 g eq_refl) Hi Hv).
    - injection H1 as <-. split; [reflexivity|]. cbn [option_map].
      unfold set_o_u_guess. ofields. cbn [option_map] in r_ug0. rewrite <- r_ug0. reflexivity. }
  destruct K as [Km ->]. rewrite Km, A, B, C in Hm. clear H1 Km.
  constructor; ofields; tcols; try assumption.
  - rewrite Hm, rows_except_fst. reflexivity.
  - reflexivity.
  - exact (rows_except_option_fst var _ _ _ r_ug_vars0).
Qed.

Lemma rep_set_p_opt : forall t o o' new lo hi,
    rep t o -> set_p_opt new lo hi o = (o', Ok tt) -> rep (table_effect (PSetPOpt new lo hi) t) o'.
Proof.
  intros t o o' new lo hi R H. unfold set_p_opt in H. grd H. grd H. modify H. modify H. injection H as <-. eqlen.
  change (given lo (neg_inf (length new))) with (lower lo (length new)) in *.
  change (given hi (pos_inf (length new))) with (upper hi (length new)) in *.
  keep R.
  - tcols. rewrite (map_app_rows _ _ _ _ _ _ _ (fst_combine2 _ _ _ _ _ (eq_sym G0) (eq_sym G))). congruence.
  - tcols. rewrite (map_app_rows _ _ _ _ _ _ _ (c1_combine _ _ _ (eq_sym G0) (eq_sym G))). congruence.
  - tcols. rewrite (map_app_rows _ _ _ _ _ _ _ (c2_combine _ _ _ (eq_sym G0) (eq_sym G))). congruence.
Qed.

Lemma rep_set_th_opt : forall t o o' new lo hi,
    rep t o -> set_th_opt new lo hi o = (o', Ok tt) -> rep (table_effect (PSetThOpt new lo hi) t) o'.
Proof.
  intros t o o' new lo hi R H. unfold set_th_opt in H. grd H. grd H. modify H. modify H. injection H as <-. eqlen.
  change (given lo (neg_inf (length new))) with (lower lo (length new)) in *.
  change (given hi (pos_inf (length new))) with (upper hi (length new)) in *.
  keep R.
  - tcols. rewrite (map_app_rows _ _ _ _ _ _ _ (fst_combine2 _ _ _ _ _ (eq_sym G0) (eq_sym G))). congruence.
  - tcols. rewrite (map_app_rows _ _ _ _ _ _ _ (c1_combine _ _ _ (eq_sym G0) (eq_sym G))). congruence.
  - tcols. rewrite (map_app_rows _ _ _ _ _ _ _ (c2_combine _ _ _ (eq_sym G0) (eq_sym G))). congruence.
Qed.

Lemma rep_replace : forall t o o' a b,
    rep t o -> ocp_replace_variable a b o = (o', Ok tt) -> rep t o'.
Proof.
  intros t o o' a b R H. unfold ocp_replace_variable in H. grd H. do 8 modk H.
  apply on_model_ok in H. destruct H as [m' [Hm E7]]. apply mv_replace in Hm.
  destruct R; constructor; back; try assumption. rewrite Hm. back. assumption.
Qed.

Lemma rep_parametrize : forall t o o' u e up,
    rep t o -> ocp_parametrize_control u e up o = (o', Ok tt) -> rep t o'.
Proof.
  intros t o o' u e up R H. unfold ocp_parametrize_control in H. next H.
  apply on_model_ok in H1. destruct H1 as [m' [Hm ->]]. apply mv_parametrize in Hm.
  eapply rep_replace; [|exact H]. apply rep_model; assumption.
Qed.

Lemma merge_guess_ok : forall (B : Type) (vars : list (sym * B)) (a b : option (list (sym * Q))) (B' : Type) (vars' : list (sym * B')),
    (forall l, a = Some l -> map fst l = map fst vars) -> (forall l, b = Some l -> map fst l = map fst vars') ->
    merge_guess (option_map (map snd) a) (length (map fst vars)) (option_map (map snd) b) =
    option_map (map snd) (merge_guess_rows vars a b) /\
    (forall l, merge_guess_rows vars a b = Some l -> map fst l = map fst vars ++ map fst vars').
Proof.
  intros B vars a b B' vars' Ha Hb. destruct a as [a|], b as [b|]; cbn [option_map merge_guess merge_guess_rows].
  - rewrite map_app. split; [reflexivity|]. intros l Hl. injection Hl as <-.
    rewrite map_app, (Ha a eq_refl), (Hb b eq_refl). reflexivity.
  - split; [reflexivity|discriminate].
  - rewrite map_fst_nil. destruct vars; cbn [option_map]; split; try reflexivity; try discriminate.
    intros l Hl. injection Hl as <-. rewrite (Hb b eq_refl). reflexivity.
  - split; [reflexivity|discriminate].
Qed.

Lemma rep_merge_problem : forall t o o' q,
    rep t o -> aligned q -> merge_problem q o = (o', Ok tt) -> rep (tables_append t (tables_of q)) o'.
Proof.
  intros t o o' q R Hq H. apply aligned_rep in Hq. revert Hq. generalize (tables_of q). intros tq Rq.
  unfold merge_problem in H. grd H. grd H. do 23 modk H. do 3 setk H. do 4 modk H.
  apply on_model_ok in H. destruct H as [m' [Hm E']]. apply mv_merge in Hm.
  unfold tables_append.
  destruct R, Rq. unfold mvars in r_vars0, r_vars1. injection r_vars0 as A B C. injection r_vars1 as A' B' C'.
  destruct (merge_guess_ok _ (t_y t) (t_yg t) (t_yg tq) _ (t_y tq) r_yg_vars0 r_yg_vars1) as [GY GY'].
  destruct (merge_guess_ok _ (t_u t) (t_ug t) (t_ug tq) _ (t_u tq) r_ug_vars0 r_ug_vars1) as [GU GU'].
  rewrite A', B', C' in Hm.
  constructor; back; cbn [t_x t_y t_u t_p t_th t_yg t_ug t_pos]; rewrite ?map_app.
  1: rewrite Hm; back; rewrite A, B, C; reflexivity.
  all: clear - A B C r_x_min0 r_x_max0 r_x_1 r_y_min0 r_y_max0 r_u_min0 r_u_max0 r_du_min0 r_du_max0 r_p0 r_p_min0
         r_p_max0 r_th0 r_th_min0 r_th_max0 r_yg0 r_ug0 r_pos0
         r_x_min1 r_x_max1 r_x_2 r_y_min1 r_y_max1 r_u_min1 r_u_max1 r_du_min1 r_du_max1 r_p1 r_p_min1
         r_p_max1 r_th1 r_th_min1 r_th_max1 r_yg1 r_ug1 r_pos1 GY GY' GU GU'.
  all: try congruence.
  - exact GY'.
  - exact GU'.
Qed.

Lemma rep_merge : forall problems t o o',
    rep t o -> Forall aligned problems -> ocp_merge problems o = (o', Ok tt) ->
    rep (table_effect (PMerge problems) t) o'.
Proof.
  intros problems; induction problems as [|q ps IH]; intros t o o' R Hp H; unfold ocp_merge in *; simpl in *.
  - injection H as <-. exact R.
  - inversion Hp as [|? ? Hq Hps]; subst. destruct (merge_problem q o) as [o1 [[]|]] eqn:E; [|discriminate].
    eapply IH; [|exact Hps|exact H]. eapply rep_merge_problem; eassumption.
Qed.

Lemma guess_rows_connect : forall u (gu : list (sym * Q)) vars v,
    map fst gu = vars -> index_vec (map snd gu) (find_syms u vars) = Ok v -> v = map snd (rows_of u gu).
Proof.
  intros u gu vars v <- H.
  pose proof (index_rows Q Q (fun x => x) u gu) as E. cbv beta in E.
  change (fun r : sym * Q => snd r) with (@snd sym Q) in E. rewrite E in H. injection H as <-. reflexivity.
Qed.

Lemma index_col : forall (B A : Type) (f : sym * B -> A) (h : B -> A) u (t : list (sym * B)) vars col r,
    (forall x, f x = h (snd x)) -> map fst t = vars -> col = map f t ->
    index_vec col (find_syms u vars) = Ok r -> r = map f (rows_of u t).
Proof.
  intros B A f h u t vars col r Hf <- -> H. rewrite (map_ext _ _ Hf) in *. rewrite index_rows in H. congruence.
Qed.

Lemma rep_connect_replace : forall t o o' u y,
    rep t o -> ocp_connect u y true o = (o', Ok tt) -> rep (table_effect (PConnect u y true) t) o'.
Proof.
  intros t o o' u y R H. unfold ocp_connect in H. grd H.
  pose proof R as R'. destruct R'. unfold mvars in r_vars0. injection r_vars0 as A B C.
  assert (Hi : forall i, In i (find_syms u (m_u (o_model o))) <-> In i (find_syms u (map fst (t_u t)))).
  { intros i. rewrite C. tauto. }
  next H. apply on_model_ok in H1. destruct H1 as [m' [Hm E0]]. apply mv_connect in Hm.
  rewrite A, B, C, app_nil_r in Hm.
  next H. injection H1 as <-.
  next H. apply cset_ok in H1. destruct H1 as [a [Ha E1]].
  next H. apply cset_ok in H1. destruct H1 as [b [Hb E2]].
  next H. rename H1 into Hg.
  next H. apply cset_ok in H1. destruct H1 as [c [Hc E4]].
  apply cset_ok in H. destruct H as [d [Hd E5]].
  assert (E3 : o3 = set_o_u_guess (option_map (map snd) (option_map (rows_except u) (t_ug t))) o2).
  { rewrite r_ug0 in Hg. destruct (t_ug t) as [g|] eqn:Eg; cbn [option_map] in Hg.
    - apply cset_ok in Hg. destruct Hg as [v [Hv ->]]. f_equal.
      exact (remove_guess _ _ _ _ _ (r_ug_vars0 g eq_refl) Hi Hv).
    - injection Hg as <-. assert (o_u_guess o2 = None) as E by (back; rewrite r_ug0; reflexivity).
      cbn [option_map]. rewrite <- E. destruct o2; reflexivity. }
  clear Hg.
  assert (o_u_max o1 = o_u_max o) as Ea by (back; reflexivity). rewrite Ea in Ha.
  assert (o_u_min o0 = o_u_min o) as Eb by (back; reflexivity). rewrite Eb in Hb.
  assert (o_du_max o3 = o_du_max o) as Ec by (back; reflexivity). rewrite Ec in Hc.
  assert (o_du_min o4 = o_du_min o) as Ed by (back; reflexivity). rewrite Ed in Hd.
  apply (remove_col _ _ _ (fun x => snd (fst x)) _ (t_u t) _ _ _ _ (fun _ => eq_refl) eq_refl r_u_max0 Hi) in Ha.
  apply (remove_col _ _ _ (fun x => fst (fst x)) _ (t_u t) _ _ _ _ (fun _ => eq_refl) eq_refl r_u_min0 Hi) in Hb.
  apply (remove_col _ _ _ (fun x => snd (snd x)) _ (t_u t) _ _ _ _ (fun _ => eq_refl) eq_refl r_du_max0 Hi) in Hc.
  apply (remove_col _ _ _ (fun x => fst (snd x)) _ (t_u t) _ _ _ _ (fun _ => eq_refl) eq_refl r_du_min0 Hi) in Hd.
  clear Ea Eb Ec Ed.
  constructor; back; tcols; try assumption.
  - rewrite Hm, rows_except_fst. reflexivity.
  - reflexivity.
  - exact (rows_except_option_fst u _ _ _ r_ug_vars0).
Qed.

Lemma rep_connect : forall t o o' u y,
    rep t o -> (forall c, In c u -> length (rows_of [c] (t_u t)) = 1%nat) -> (t_yg t <> None -> t_ug t <> None) ->
    ocp_connect u y false o = (o', Ok tt) -> rep (table_effect (PConnect u y false) t) o'.
Proof.
  intros t o o' u y R Hone Hgy H. unfold ocp_connect in H. grd H.
  pose proof R as R'. destruct R'. unfold mvars in r_vars0. injection r_vars0 as A B C.
  assert (Hi : forall i, In i (find_syms u (m_u (o_model o))) <-> In i (find_syms u (map fst (t_u t)))).
  { intros i. rewrite C. tauto. }
  next H. apply on_model_ok in H1. destruct H1 as [m' [Hm E0]]. apply mv_connect in Hm.
  rewrite A, B, C in Hm.
  next H. rename H1 into K.
  next K. rename H1 into Kg. next K. apply cset_ok in H1. destruct H1 as [a' [Ka E1']].
  apply cset_ok in K. destruct K as [b' [Kb E2']].
  next H. apply cset_ok in H1. destruct H1 as [a [Ha E1]].
  next H. apply cset_ok in H1. destruct H1 as [b [Hb E2]].
  next H. rename H1 into Hg.
  next H. apply cset_ok in H1. destruct H1 as [c [Hc E4]].
  apply cset_ok in H. destruct H as [d [Hd E5]].
  set (yg' := match t_yg t, t_ug t with Some gy, Some gu => Some (gy ++ rows_of u gu) | g, _ => g end).
  assert (Eyg : o2 = set_o_y_guess (option_map (map snd) yg') o1).
  { subst yg'. rewrite r_ug0, r_yg0 in Kg.
    destruct (t_ug t) as [gu|] eqn:Eu, (t_yg t) as [gy|] eqn:Ey; cbn [option_map] in *.
    - apply cset_ok in Kg. destruct Kg as [v [Hv ->]]. f_equal.
      destruct (index_vec (map snd gu) (find_syms u (m_u (o_model o)))) as [w|] eqn:Ew; [|discriminate].
      injection Hv as <-. rewrite C in Ew. rewrite (guess_rows_connect u gu _ w (r_ug_vars0 gu eq_refl) Ew).
      rewrite map_app. reflexivity.
    - injection Kg as <-. assert (o_y_guess o1 = None) as E by (back; rewrite r_yg0; reflexivity).
      rewrite <- E. destruct o1; reflexivity.
    - exfalso. apply Hgy; [discriminate|reflexivity].
    - injection Kg as <-. assert (o_y_guess o1 = None) as E by (back; rewrite r_yg0; reflexivity).
      rewrite <- E. destruct o1; reflexivity. }
  clear Kg.
  assert (E3 : o6 = set_o_u_guess (option_map (map snd) (option_map (rows_except u) (t_ug t))) o5).
  { rewrite r_ug0 in Hg. destruct (t_ug t) as [g|] eqn:Eg; cbn [option_map] in Hg.
    - apply cset_ok in Hg. destruct Hg as [v [Hv ->]]. f_equal.
      exact (remove_guess _ _ _ _ _ (r_ug_vars0 g eq_refl) Hi Hv).
    - injection Hg as <-. assert (o_u_guess o5 = None) as E by (back; rewrite r_ug0; reflexivity).
      cbn [option_map]. rewrite <- E. destruct o5; reflexivity. }
  clear Hg.
  assert (o_u_max o2 = o_u_max o) as Ea' by (back; reflexivity). rewrite Ea' in Ka.
  assert (o_y_max o2 = o_y_max o) as Ey' by (back; reflexivity). rewrite Ey' in Ka.
  assert (o_u_min o3 = o_u_min o) as Eb' by (back; reflexivity). rewrite Eb' in Kb.
  assert (o_y_min o3 = o_y_min o) as Ez' by (back; reflexivity). rewrite Ez' in Kb.
  assert (o_u_max o0 = o_u_max o) as Ea by (back; reflexivity). rewrite Ea in Ha.
  assert (o_u_min o4 = o_u_min o) as Eb by (back; reflexivity). rewrite Eb in Hb.
  assert (o_du_max o6 = o_du_max o) as Ec by (back; reflexivity). rewrite Ec in Hc.
  assert (o_du_min o7 = o_du_min o) as Ed by (back; reflexivity). rewrite Ed in Hd.
  clear Ea' Ey' Eb' Ez' Ea Eb Ec Ed. rewrite C in Ka, Kb.
  destruct (index_vec (o_u_max o) _) as [hi|] eqn:Ehi in Ka; [|discriminate]. injection Ka as <-.
  destruct (index_vec (o_u_min o) _) as [lo|] eqn:Elo in Kb; [|discriminate]. injection Kb as <-.
  apply (index_col _ _ _ (fun x => snd (fst x)) _ (t_u t) _ _ _ (fun _ => eq_refl) eq_refl r_u_max0) in Ehi.
  apply (index_col _ _ _ (fun x => fst (fst x)) _ (t_u t) _ _ _ (fun _ => eq_refl) eq_refl r_u_min0) in Elo.
  apply (remove_col _ _ _ (fun x => snd (fst x)) _ (t_u t) _ _ _ _ (fun _ => eq_refl) eq_refl r_u_max0 Hi) in Ha.
  apply (remove_col _ _ _ (fun x => fst (fst x)) _ (t_u t) _ _ _ _ (fun _ => eq_refl) eq_refl r_u_min0 Hi) in Hb.
  apply (remove_col _ _ _ (fun x => snd (snd x)) _ (t_u t) _ _ _ _ (fun _ => eq_refl) eq_refl r_du_max0 Hi) in Hc.
  apply (remove_col _ _ _ (fun x => fst (snd x)) _ (t_u t) _ _ _ _ (fun _ => eq_refl) eq_refl r_du_min0 Hi) in Hd.
  pose proof (rows_of_fst _ u (t_u t) Hone) as Hfst.
  constructor; back; tcols; fold yg'; try assumption.
  - rewrite Hm, rows_except_fst, map_app, map_map. cbn [fst].
    f_equal. f_equal. f_equal. f_equal. symmetry. exact Hfst.
  - rewrite map_app, map_map. rewrite Elo, r_y_min0. reflexivity.
  - rewrite map_app, map_map. rewrite Ehi, r_y_max0. reflexivity.
  - reflexivity.
  - intros g Eg. rewrite map_app, map_map. cbn [fst].
    subst yg'. destruct (t_yg t) as [gy|] eqn:Ey; [|discriminate].
    destruct (t_ug t) as [gu|] eqn:Eu; [|exfalso; apply Hgy; [discriminate|reflexivity]].
    injection Eg as <-. rewrite map_app, (r_yg_vars0 gy eq_refl). f_equal.
    apply rows_of_same_count. exact (r_ug_vars0 gu eq_refl).
  - reflexivity.
  - exact (rows_except_option_fst u _ _ _ r_ug_vars0).
Qed.

Lemma rep_step : forall same op t o o',
    rep t o -> admissible t op -> ocp_step same op o = (o', Ok tt) -> rep (table_effect op t) o'.
Proof.
  intros same op t o o' R Ha H. destruct op; cbn [ocp_step admissible] in *.
  - destruct Ha. eapply rep_include_state; eassumption.
  - eapply rep_include_algebraic; [eassumption| |eassumption]. destruct y_guess; [exact Ha|exact I].
  - eapply rep_include_control; eassumption.
  - eapply rep_remove_algebraic; eassumption.
  - eapply rep_remove_control; eassumption.
  - apply on_model_ok in H. destruct H as [m' [Hm ->]]. apply mv_equations_ok in Hm. apply rep_model; assumption.
  - apply on_model_ok in H. destruct H as [m' [Hm ->]]. injection Hm as <-. apply rep_model; [assumption|reflexivity].
  - apply on_model_ok in H. destruct H as [m' [Hm ->]]. injection Hm as <-. apply rep_model; [assumption|reflexivity].
  - eapply rep_set_p_opt; eassumption.
  - eapply rep_set_th_opt; eassumption.
  - unfold include_p_opt in H. next H. apply on_model_ok in H1. destruct H1 as [m' [Hm ->]]. injection Hm as <-.
    apply (rep_set_p_opt t) in H; [exact H|]. apply rep_model; [assumption|reflexivity].
  - unfold include_th_opt in H. next H. apply on_model_ok in H1. destruct H1 as [m' [Hm ->]]. injection Hm as <-.
    apply (rep_set_th_opt t) in H; [exact H|]. apply rep_model; [assumption|reflexivity].
  - injection H as <-. keep R.
  - injection H as <-. keep R.
  - injection H as <-. keep R.
  - injection H as <-. keep R.
  - injection H as <-. keep R.
  - eapply rep_replace; eassumption.
  - eapply rep_parametrize; eassumption.
  - eapply rep_cost_state; eassumption.
  - eapply rep_merge; eassumption.
  - destruct replace.
    + eapply rep_connect_replace; eassumption.
    + destruct Ha. eapply rep_connect; eassumption.
Qed.

Lemma rep_history : forall same ops t o o',
    rep t o -> admissible_history t ops -> run_all (ocp_step same) ops o = (o', Ok tt) ->
    rep (fold_left (fun t op => table_effect op t) ops t) o'.
Proof.
  intros same ops; induction ops as [|op ops IH]; intros t o o' R Ha H; simpl in *.
  - injection H as <-. exact R.
  - destruct Ha as [Ha Hr]. destruct (ocp_step same op o) as [o1 [[]|]] eqn:E; [|discriminate].
    eapply IH; [|exact Hr|exact H]. eapply rep_step; eassumption.
Qed.

Lemma history_tables : forall same ops o o',
    aligned o -> admissible_history (tables_of o) ops -> run_all (ocp_step same) ops o = (o', Ok tt) ->
    aligned o' /\ tables_of o' = fold_left (fun t op => table_effect op t) ops (tables_of o).
Proof.
  intros same ops o o' A Ha H. apply aligned_rep in A.
  pose proof (rep_history same ops _ _ _ A Ha H) as R. split; [eapply rep_aligned; exact R|].
  symmetry. apply rep_tables. exact R.
Qed.

Lemma new_ocp_aligned : forall m x_0 t_0 t_f o,
    new_ocp m x_0 t_0 t_f = Ok o -> length (o_x_0 o) = length (m_x m) -> aligned o.
Proof.
  intros m x_0 t_0 t_f o H Hx. unfold new_ocp in H.
  destruct (zip_vec _ _ _) as [h|]; [|discriminate]. injection H as <-. unfold aligned, neg_inf, pos_inf in *. ofields.
  rewrite !repeat_length. simpl. tauto.
Qed.

Lemma effect_keeps : forall op t,
    (forall r, In r (t_x t) -> In r (t_x (table_effect op t))) /\
    (forall r, In r (t_p t) -> In r (t_p (table_effect op t))) /\
    (forall r, In r (t_th t) -> In r (t_th (table_effect op t))) /\
    (forall c r, In (c, r) (t_u t) -> ~ drops_control c op -> In (c, r) (t_u (table_effect op t))) /\
    (forall c r, In (c, r) (t_y t) -> ~ drops_algebraic c op -> In (c, r) (t_y (table_effect op t))).
Proof.
  assert (EX : forall (B : Type) var (l : list (sym * B)) c r, In (c, r) l -> ~ In c var -> In (c, r) (rows_except var l)).
  { intros B var l c r Hin Hn. apply filter_In. split; [exact Hin|]. apply not_in_true. exact Hn. }
  intros op t. destruct op; cbn [table_effect drops_control drops_algebraic]; unfold add_x, add_p, add_th;
    cbn [t_x t_y t_u t_p t_th];
    try (repeat split; intros; try assumption; try (apply in_or_app; left; assumption); try (apply EX; assumption); fail).
  - (* merge *)
    revert t. induction problems as [|q ps IH]; intros t; simpl.
    + repeat split; intros; assumption.
    + destruct (IH (tables_append t (tables_of q))) as [A [B [C [D E]]]]. repeat split; intros.
      * apply A. simpl. apply in_or_app. left. assumption.
      * apply B. simpl. apply in_or_app. left. assumption.
      * apply C. simpl. apply in_or_app. left. assumption.
      * apply D; [|assumption]. simpl. apply in_or_app. left. assumption.
      * apply E; [|assumption]. simpl. apply in_or_app. left. assumption.
  - destruct replace; cbn [t_x t_y t_u t_p t_th]; repeat split; intros; try assumption;
      try (apply in_or_app; left; assumption); apply EX; assumption.
Qed.

Lemma effects_keep : forall ops t,
    let t' := fold_left (fun t op => table_effect op t) ops t in
    (forall r, In r (t_x t) -> In r (t_x t')) /\
    (forall r, In r (t_p t) -> In r (t_p t')) /\
    (forall r, In r (t_th t) -> In r (t_th t')) /\
    (forall c r, In (c, r) (t_u t) -> (forall op, In op ops -> ~ drops_control c op) -> In (c, r) (t_u t')) /\
    (forall c r, In (c, r) (t_y t) -> (forall op, In op ops -> ~ drops_algebraic c op) -> In (c, r) (t_y t')).
Proof.
  intros ops; induction ops as [|op ops IH]; intros t; simpl.
  - repeat split; intros; assumption.
  - destruct (IH (table_effect op t)) as [A [B [C [D E]]]].
    destruct (effect_keeps op t) as [A' [B' [C' [D' E']]]]. repeat split; intros; auto.
Qed.

(** ** Merging *)

Lemma merge_problem_horizon : forall q o o', merge_problem q o = (o', Ok tt) -> same_horizon o q.
Proof.
  intros q o o' H. unfold merge_problem in H. grd H. grd H. split.
  - apply Qeq_bool_iff. apply negb_false_iff. exact G.
  - apply Qeq_bool_iff. apply negb_false_iff. exact G0.
Qed.

Lemma merge_problem_refused : forall q o, ~ same_horizon o q -> merge_problem q o = (o, Raise ValueError).
Proof.
  intros q o H. unfold merge_problem, cbind, cguard.
  destruct (Qeq_bool (o_t_0 o) (o_t_0 q)) eqn:E1; cbn [negb]; [|reflexivity].
  destruct (Qeq_bool (o_t_f o) (o_t_f q)) eqn:E2; cbn [negb]; [|reflexivity].
  exfalso. apply H. split; apply Qeq_bool_iff; assumption.
Qed.

Definition appended (a b : ocp) (o' : ocp) : Prop :=
  (o_t_0 o' = o_t_0 a /\ o_t_f o' = o_t_f a) /\
  o_eta o' = o_eta a ++ o_eta b /\ o_p_opt o' = o_p_opt a ++ o_p_opt b /\
  o_theta_opt o' = o_theta_opt a ++ o_theta_opt b /\ o_x_0 o' = o_x_0 a ++ o_x_0 b /\
  o_h o' = o_h a ++ o_h b /\ o_h_initial o' = o_h_initial a ++ o_h_initial b /\
  o_h_final o' = o_h_final a ++ o_h_final b /\
  o_g_eq o' = o_g_eq a ++ o_g_eq b /\ o_g_ineq o' = o_g_ineq a ++ o_g_ineq b /\
  o_when_eq o' = o_when_eq a ++ o_when_eq b /\ o_when_ineq o' = o_when_ineq a ++ o_when_ineq b /\
  zip_vec OAdd (o_L a) (o_L b) = Ok (o_L o') /\ zip_vec OAdd (o_V a) (o_V b) = Ok (o_V o') /\
  zip_vec OAdd (o_S a) (o_S b) = Ok (o_S o') /\
  mvars (o_model o') = (m_x (o_model a) ++ m_x (o_model b), m_y (o_model a) ++ m_y (o_model b),
                        m_u (o_model a) ++ m_u (o_model b)) /\
  (exists m', merge [o_model b] None (o_model a) = (m', Ok tt) /\ o_model o' = m').

Ltac setk' H := let o1 := fresh "o" in let E := fresh "E" in let v := fresh "v" in let Z := fresh "Z" in
  apply cbind_ok in H; destruct H as [o1 [[] [E H]]]; apply cset_ok in E; destruct E as [v [Z E]].

Lemma merge_problem_appended : forall q o o', merge_problem q o = (o', Ok tt) -> appended o q o'.
Proof.
  intros q o o' H.
  unfold merge_problem in H. grd H. grd H. do 23 modk H. do 3 setk' H. do 4 modk H.
  apply on_model_ok in H. destruct H as [m' [Hm E']].
  match type of Hm with merge _ _ (o_model ?x) = _ =>
    assert (Em : o_model x = o_model o) by (back; reflexivity); rewrite Em in Hm end.
  match type of Z with zip_vec _ (o_L ?x) _ = _ =>
    assert (EL : o_L x = o_L o) by (back; reflexivity); rewrite EL in Z end.
  match type of Z0 with zip_vec _ (o_V ?x) _ = _ =>
    assert (EV : o_V x = o_V o) by (back; reflexivity); rewrite EV in Z0 end.
  match type of Z1 with zip_vec _ (o_S ?x) _ = _ =>
    assert (ES : o_S x = o_S o) by (back; reflexivity); rewrite ES in Z1 end.
  clear Em EL EV ES.
  pose proof (mv_merge _ _ _ Hm) as Hv.
  unfold appended. back. repeat split; try reflexivity; try assumption. exists m'. auto.
Qed.

Lemma merge_all_appended : forall ps o o',
    ocp_merge ps o = (o', Ok tt) ->
    Forall (same_horizon o) ps /\ o_t_0 o' = o_t_0 o /\ o_t_f o' = o_t_f o /\
    o_eta o' = o_eta o ++ flat_map o_eta ps /\ o_p_opt o' = o_p_opt o ++ flat_map o_p_opt ps /\
    o_theta_opt o' = o_theta_opt o ++ flat_map o_theta_opt ps /\ o_x_0 o' = o_x_0 o ++ flat_map o_x_0 ps /\
    o_h o' = o_h o ++ flat_map o_h ps /\ o_h_initial o' = o_h_initial o ++ flat_map o_h_initial ps /\
    o_h_final o' = o_h_final o ++ flat_map o_h_final ps /\
    o_g_eq o' = o_g_eq o ++ flat_map o_g_eq ps /\ o_g_ineq o' = o_g_ineq o ++ flat_map o_g_ineq ps /\
    o_when_eq o' = o_when_eq o ++ flat_map o_when_eq ps /\
    o_when_ineq o' = o_when_ineq o ++ flat_map o_when_ineq ps /\
    m_x (o_model o') = m_x (o_model o) ++ flat_map (fun q => m_x (o_model q)) ps /\
    m_y (o_model o') = m_y (o_model o) ++ flat_map (fun q => m_y (o_model q)) ps /\
    m_u (o_model o') = m_u (o_model o) ++ flat_map (fun q => m_u (o_model q)) ps.
Proof.
  intros ps; induction ps as [|q ps IH]; intros o o' H; unfold ocp_merge in *; simpl in *.
  - injection H as <-. rewrite !app_nil_r. repeat split; auto.
  - destruct (merge_problem q o) as [o1 [[]|]] eqn:E; [|discriminate].
    pose proof (merge_problem_horizon _ _ _ E) as Hq. pose proof (merge_problem_appended _ _ _ E) as A.
    specialize (IH _ _ H). unfold appended in A. destruct A as [[T0 TF] A]. decompose [and] A. clear A.
    decompose [and] IH. clear IH.
    match goal with X : mvars _ = _ |- _ => unfold mvars in X; injection X as ? ? ? end.
    rewrite !app_assoc. repeat split; try congruence.
    constructor; [exact Hq|]. match goal with X : Forall _ ps |- _ => revert X end. apply Forall_impl.
    intros q' [h1 h2]. rewrite T0 in h1. rewrite TF in h2. split; assumption.
Qed.

(** Sums of costs. *)

Lemma merge_costs : forall (f : ocp -> list expr) ,
    (forall q o o', merge_problem q o = (o', Ok tt) -> zip_vec OAdd (f o) (f q) = Ok (f o')) ->
    forall ps ls o l o',
    f o = [l] -> Forall2 (fun q c => f q = [c]) ps ls -> ocp_merge ps o = (o', Ok tt) ->
    exists e, f o' = [e] /\ forall F env, (eval F env e == eval F env l + fold_right Qplus 0 (map (eval F env) ls))%Q.
Proof.
  intros f Hf ps; induction ps as [|q ps IH]; intros ls o l o' Hl Hls H; unfold ocp_merge in *; simpl in *.
  - injection H as <-. inversion Hls; subst. exists l. split; [exact Hl|]. intros. simpl. ring.
  - inversion Hls as [|? c ? cs Hc Hcs]; subst. destruct (merge_problem q o) as [o1 [[]|]] eqn:E; [|discriminate].
    pose proof (Hf _ _ _ E) as Z. rewrite Hl, Hc in Z. unfold zip_vec in Z. simpl in Z. injection Z as Z.
    destruct (IH cs o1 (EBin OAdd l c) o' (eq_sym Z) Hcs H) as [e [He Hv]]. exists e. split; [exact He|].
    intros F env. rewrite (Hv F env). simpl. ring.
Qed.

(** ** Connecting: what stays *)

Definition untouched (o o' : ocp) : Prop :=
  problem_expressions o' = problem_expressions o /\ o_when_eq o' = o_when_eq o /\ o_when_ineq o' = o_when_ineq o /\
  o_t_0 o' = o_t_0 o /\ o_t_f o' = o_t_f o /\ o_x_0 o' = o_x_0 o /\ o_eta o' = o_eta o /\
  o_x_min o' = o_x_min o /\ o_x_max o' = o_x_max o /\
  o_p_opt o' = o_p_opt o /\ o_theta_opt o' = o_theta_opt o /\ o_last_u o' = o_last_u o /\
  o_x_cost o' = o_x_cost o.

Definition stays {A : Type} (c : cmd ocp A) : Prop := forall o, untouched o (fst (c o)).

Lemma untouched_refl : forall o, untouched o o.
Proof. intros o. unfold untouched. auto 20. Qed.
Lemma untouched_trans : forall a b c, untouched a b -> untouched b c -> untouched a c.
Proof.
  intros a b c H1 H2. unfold untouched in *. decompose [and] H1. decompose [and] H2.
  repeat split; congruence.
Qed.
Lemma stays_bind : forall A B (c : cmd ocp A) (k : A -> cmd ocp B),
    stays c -> (forall a, stays (k a)) -> stays (cbind c k).
Proof.
  intros A B c k Hc Hk o. unfold cbind. pose proof (Hc o) as H1. destruct (c o) as [o1 [a|e]]; [|exact H1].
  eapply untouched_trans; [exact H1|apply Hk].
Qed.
Lemma stays_guard : forall bad e, stays (cguard bad e).
Proof. intros bad e o. unfold cguard. destruct (bad o); apply untouched_refl. Qed.
Lemma stays_model : forall A (c : cmd model A), stays (on_model c).
Proof. intros A c o. unfold on_model. destruct (c (o_model o)). unfold untouched, problem_expressions. simpl. auto 20. Qed.
Lemma stays_set : forall A (r : ocp -> res A) put,
    (forall a o, untouched o (put a o)) -> stays (cset r put).
Proof. intros A r put H o. unfold cset. destruct (r o); [apply H|apply untouched_refl]. Qed.

Lemma connect_stays : forall u y r, stays (ocp_connect u y r).
Proof.
  intros u y r. unfold ocp_connect. apply stays_bind; [apply stays_guard|]. intros _ o.
  match goal with |- untouched _ (fst (?c o)) => assert (S : stays c); [|exact (S o)] end.
  assert (N : stays (cret tt)) by (intros o1; apply untouched_refl).
  repeat (apply stays_bind; [|intros _]); try apply stays_model; try (apply stays_set; intros; unfold untouched, problem_expressions; simpl; auto 20).
  - destruct r; [exact N|]. apply stays_bind; [|intros _; apply stays_bind; [|intros _]].
    + destruct (o_u_guess o), (o_y_guess o); try exact N. apply stays_set; intros; unfold untouched, problem_expressions; simpl; auto 20.
    + apply stays_set; intros; unfold untouched, problem_expressions; simpl; auto 20.
    + apply stays_set; intros; unfold untouched, problem_expressions; simpl; auto 20.
  - destruct (o_u_guess o); [|exact N]. apply stays_set; intros; unfold untouched, problem_expressions; simpl; auto 20.
Qed.

(** ** Quadratic costs *)

Lemma esum_value : forall F env (l : list expr), (eval F env (esum l) == qsum (map (eval F env) l))%Q.
Proof. intros F env l; induction l as [|e l IH]; simpl; [reflexivity|]. rewrite IH. reflexivity. Qed.

Lemma qsum_ext : forall (A : Type) (f g : A -> Q) l, (forall a, In a l -> f a == g a)%Q -> (qsum (map f l) == qsum (map g l))%Q.
Proof.
  intros A f g l; induction l as [|a l IH]; intros H; simpl; [reflexivity|].
  rewrite (H a (or_introl eq_refl)), IH by (intros b Hb; apply H; right; exact Hb). reflexivity.
Qed.
Lemma qsum_scale : forall (A : Type) (f : A -> Q) k l, (qsum (map (fun a => f a * k) l) == qsum (map f l) * k)%Q.
Proof. intros A f k l; induction l as [|a l IH]; simpl; [ring|]. rewrite IH. ring. Qed.

Lemma qsum_zero' : forall (A : Type) (f : A -> Q) l, (forall a, In a l -> f a == 0)%Q -> (qsum (map f l) == 0)%Q.
Proof.
  intros A f l; induction l as [|a l IH]; intros H; simpl; [reflexivity|].
  rewrite (H a (or_introl eq_refl)), IH by (intros b Hb; apply H; right; exact Hb). ring.
Qed.
Lemma qsum_delta : forall (f : nat -> Q) n j start, (start <= j < start + n)%nat ->
    (qsum (map (fun i => if (i =? j)%nat then f i else 0) (seq start n)) == f j)%Q.
Proof.
  intros f n; induction n as [|n IH]; intros j start H; [lia|]. simpl.
  destruct (Nat.eqb_spec start j) as [->|Hne].
  - rewrite qsum_zero'; [ring|]. intros i Hi. apply in_seq in Hi. destruct (Nat.eqb_spec i j); [lia|reflexivity].
  - rewrite IH by lia. ring.
Qed.

Lemma map_nth_seq : forall (A : Type) (d : A) (l : list A), map (fun i => nth i l d) (seq 0 (length l)) = l.
Proof.
  intros A d l. induction l as [|a l IH]; simpl; [reflexivity|]. f_equal.
  rewrite <- seq_shift, map_map. exact IH.
Qed.

Lemma map_seq_of : forall (A B : Type) (d : A) (f : A -> B) (l : list A),
    map f l = map (fun i => f (nth i l d)) (seq 0 (length l)).
Proof. intros A B d f l. rewrite <- (map_nth_seq A d l) at 1. rewrite map_map. reflexivity. Qed.

Lemma quadratic_form_value : forall F env v W e,
    quadratic_form v W = Ok e -> (eval F env e == quadratic_value W (map (eval F env) v))%Q.
Proof.
  intros F env v W e H. unfold quadratic_value. rewrite map_length.
  set (n := length v). set (vals := map (eval F env) v).
  assert (Hn : forall i, (i < n)%nat -> eval F env (nth i v (EConst 0%Q)) = nth i vals 0%Q).
  { intros i Hi. unfold vals. change 0%Q with (eval F env (EConst 0%Q)) at 2. symmetry. apply map_nth. }
  assert (Sc : (exists w, W = [[w]]) \/
    (forall i j, weight W i j = nth j (nth i W []) 0%Q) /\
    (quadratic_form v W = if ((length W =? length v)%nat && forallb (fun row => (length row =? length v)%nat) W)%bool
      then Ok (esum (map (fun j =>
             EBin OMul (esum (map (fun er => EBin OMul (fst er) (EConst (nth j (snd er) 0%Q)))
                                  (combine v W)))
                       (nth j v (EConst 0%Q))) (seq 0 (length v))))
      else Raise CasadiError)).
  { destruct W as [|[|w [|w' row]] [|row' W]]; try (right; split; reflexivity). left. exists w. reflexivity. }
  destruct Sc as [[w ->]|[Hw E]].
  - simpl in H. injection H as <-. rewrite esum_value, map_map. simpl.
    rewrite (map_seq_of _ _ (EConst 0%Q)). fold n. apply qsum_ext. intros j Hj. apply in_seq in Hj.
    rewrite (Hn j) by lia. symmetry.
    transitivity (w * nth j vals 0 * nth j vals 0)%Q; [|ring].
    transitivity (qsum (map (fun i => if (i =? j)%nat then (w * nth i vals 0 * nth j vals 0)%Q else 0%Q) (seq 0 n))).
    + apply qsum_ext. intros i _. destruct (i =? j)%nat; ring.
    + apply (qsum_delta (fun i => w * nth i vals 0 * nth j vals 0)%Q n j 0). lia.
  - rewrite E in H. destruct (Nat.eqb_spec (length W) (length v)) as [HL|]; [|discriminate]. simpl in H.
    destruct (forallb _ W); [|discriminate]. injection H as <-. rewrite esum_value, map_map. fold n.
    apply qsum_ext. intros j Hj. apply in_seq in Hj. simpl. rewrite esum_value, map_map, (Hn j) by lia.
    rewrite (qsum_scale _ (fun i => weight W i j * nth i vals 0)%Q (nth j vals 0%Q)).
    assert (X : (qsum (map (fun x : expr * list Q => eval F env (EBin OMul (fst x) (EConst (nth j (snd x) 0%Q)))) (combine v W)) ==
            qsum (map (fun i => weight W i j * nth i vals 0) (seq 0 n)))%Q); [|rewrite X; reflexivity].
    rewrite (map_seq_of _ _ (EConst 0%Q, [])). rewrite combine_length, HL, Nat.min_id. fold n.
    apply qsum_ext. intros i Hi. apply in_seq in Hi. rewrite combine_nth by congruence. simpl.
    rewrite (Hn i) by lia. rewrite Hw. ring.
Qed.

Lemma quadratic_form_total : forall v W, weights_fit W (length v) -> exists e, quadratic_form v W = Ok e.
Proof.
  intros v W [[w ->]|[H1 H2]].
  - eexists; reflexivity.
  - assert (E : ((length W =? length v)%nat && forallb (fun row => (length row =? length v)%nat) W)%bool = true).
    { apply andb_true_iff. split; [apply Nat.eqb_eq; exact H1|]. apply forallb_forall. intros r Hr.
      rewrite Forall_forall in H2. apply Nat.eqb_eq, H2, Hr. }
    unfold quadratic_form. rewrite E. destruct W as [|[|w [|w' row]] [|row' W]]; eexists; reflexivity.
Qed.

Lemma deviation_value : forall F env (x : list sym) ref,
    if_given (fun r : list Q => length r = length x \/ length r = 1%nat) ref ->
    exists d, zip_vec OSub (map EVar x) (map EConst (match ref with Some v => v | None => repeat 0%Q (length (map EVar x)) end)) = Ok d /\
      length d = length x /\ Forall2 (fun e q => (eval F env e == q)%Q) d (deviation (map env x) ref).
Proof.
  intros F env x ref H. unfold zip_vec. destruct ref as [r|].
  - rewrite !map_length. simpl in H. destruct (Nat.eqb_spec (length x) (length r)) as [El|Hl].
    + eexists. split; [reflexivity|]. split; [rewrite map_length, combine_length, !map_length; lia|].
      destruct r as [|q [|q2 r]]; cbn [deviation].
      * destruct x; [constructor|discriminate].
      * destruct x as [|a [|]]; try discriminate. simpl. constructor; [reflexivity|constructor].
      * revert El. generalize (q :: q2 :: r). clear. intros rr. revert x. induction rr as [|b rr IH]; intros [|a x] El; try discriminate; simpl.
        -- constructor.
        -- constructor; [reflexivity|]. apply IH. simpl in El. lia.
    + destruct H as [H|H]; [congruence|]. destruct r as [|q [|]]; try discriminate. simpl.
      assert (E : (match map EVar x with
                  | [] => Ok (map (fun x0 : expr => EBin OSub x0 (EConst q)) (map EVar x))
                  | [x0] => Ok [EBin OSub x0 (EConst q)]
                  | _ :: _ :: _ => Ok (map (fun x0 : expr => EBin OSub x0 (EConst q)) (map EVar x))
                  end) = Ok (map (fun x0 : expr => EBin OSub x0 (EConst q)) (map EVar x))).
      { destruct x as [|a [|b x]]; reflexivity. }
      eexists. split; [exact E|]. split; [rewrite !map_length; reflexivity|].
      clear. induction x as [|a x IH]; simpl; constructor; [reflexivity|exact IH].
  - rewrite !map_length, repeat_length, Nat.eqb_refl. eexists. split; [reflexivity|].
    split; [rewrite map_length, combine_length, !map_length, repeat_length; lia|]. simpl. clear.
    induction x as [|a x IH]; simpl; constructor; [simpl; ring|exact IH].
Qed.

Lemma quadratic_value_ext : forall W a b, Forall2 Qeq a b -> (quadratic_value W a == quadratic_value W b)%Q.
Proof.
  intros W a b H. unfold quadratic_value.
  assert (L : length a = length b) by (induction H; simpl; congruence).
  assert (N : forall i, (nth i a 0 == nth i b 0)%Q).
  { induction H; intros [|i]; simpl; try reflexivity; [assumption|]. apply IHForall2. simpl in L. lia. }
  rewrite L. apply qsum_ext. intros j _. apply qsum_ext. intros i _. rewrite (N i), (N j). reflexivity.
Qed.

Lemma add_form_value : forall F env v W acc vals,
    Forall2 (fun e q => (eval F env e == q)%Q) v vals -> if_given (fun W => weights_fit W (length v)) W ->
    exists e, add_form (Ok v) W acc = Ok e /\ (eval F env e == eval F env acc + optional_value W vals)%Q.
Proof.
  intros F env v W acc vals Hv HW. destruct W as [W|]; simpl in *.
  - destruct (quadratic_form_total v W HW) as [f Hf]. rewrite Hf. eexists. split; [reflexivity|]. simpl.
    rewrite (quadratic_form_value F env v W f Hf). rewrite (quadratic_value_ext W _ vals); [reflexivity|].
    clear - Hv. induction Hv; simpl; constructor; assumption.
  - exists acc. split; [reflexivity|]. ring.
Qed.

Lemma quadratic_cost_value : forall F env o x_ref u_ref Wq Wr Wqv Wrv,
    let x := m_x (o_model o) in
    let u := m_u (o_model o) in
    if_given (fun r : list Q => length r = length x \/ length r = 1%nat) x_ref ->
    if_given (fun r : list Q => length r = length u \/ length r = 1%nat) u_ref ->
    if_given (fun W => weights_fit W (length x)) Wq -> if_given (fun W => weights_fit W (length u)) Wr ->
    if_given (fun W => weights_fit W (length x)) Wqv -> if_given (fun W => weights_fit W (length x)) Wrv ->
    exists l v o', create_quadratic_cost x_ref u_ref Wq Wr Wqv Wrv o = (o', Ok tt) /\
      o' = set_o_V [v] (set_o_L [l] o) /\
      (eval F env l == optional_value Wq (deviation (map env x) x_ref) + optional_value Wr (deviation (map env u) u_ref))%Q /\
      (eval F env v == optional_value Wqv (deviation (map env x) x_ref) + optional_value Wrv (map env x))%Q.
Proof.
  intros F env o x_ref u_ref Wq Wr Wqv Wrv x u Hx Hu Hq Hr Hqv Hrv.
  destruct (deviation_value F env x x_ref Hx) as [dx [Ex [Lx Vx]]].
  destruct (deviation_value F env u u_ref Hu) as [du [Eu [Lu Vu]]].
  assert (Vid : Forall2 (fun e q => (eval F env e == q)%Q) (map EVar x) (map env x)).
  { clear. induction x as [|a x IH]; simpl; constructor; [reflexivity|exact IH]. }
  assert (Lid : length (map EVar x) = length x) by apply map_length.
  destruct (add_form_value F env dx Wq (EConst 0%Q) _ Vx) as [l1 [E1 V1]]; [rewrite Lx; exact Hq|].
  destruct (add_form_value F env du Wr l1 _ Vu) as [l2 [E2 V2]]; [rewrite Lu; exact Hr|].
  destruct (add_form_value F env dx Wqv (EConst 0%Q) _ Vx) as [v1 [E3 V3]]; [rewrite Lx; exact Hqv|].
  destruct (add_form_value F env (map EVar x) Wrv v1 _ Vid) as [v2 [E4 V4]]; [rewrite Lid; exact Hrv|].
  exists l2, v2. eexists. split; [|split; [reflexivity|split]].
  - unfold create_quadratic_cost. fold x u. rewrite Ex, Eu.
    unfold cbind, cmodify, cset. ofields. rewrite E1. ofields. rewrite E2. ofields. rewrite E3. ofields. rewrite E4.
    ofields. reflexivity.
  - rewrite V2, V1. simpl. ring.
  - rewrite V4, V3. simpl. ring.
Qed.

(** ** Connecting succeeds *)

Lemma remove_at_find : forall (A : Type) u vars (col : list A),
    length col = length vars -> exists r, remove_at (find_syms u vars) col = Ok r.
Proof.
  intros A u vars col H.
  pose proof (remove_rows A A (fun x => x) u (combine vars col) (find_syms u vars)) as E.
  cbv beta in E. rewrite combine_map_fst in E by exact H.
  change (fun r : sym * A => snd r) with (@snd sym A) in E. rewrite combine_map_snd in E by exact H.
  eexists. apply E. tauto.
Qed.
Lemma index_find : forall (A : Type) u vars (col : list A),
    length col = length vars -> exists r, index_vec col (find_syms u vars) = Ok r.
Proof.
  intros A u vars col H.
  pose proof (index_rows A A (fun x => x) u (combine vars col)) as E.
  cbv beta in E. rewrite combine_map_fst in E by exact H.
  change (fun r : sym * A => snd r) with (@snd sym A) in E. rewrite combine_map_snd in E by exact H.
  eexists. exact E.
Qed.

Lemma connect_total : forall u y r o,
    aligned o -> length (m_u_expr (o_model o)) = length (m_u (o_model o)) ->
    length u = length y -> (exists c, In c u /\ In c (m_u (o_model o))) ->
    (exists c, In c u /\ In c (m_u_par (o_model o))) ->
    snd (ocp_connect u y r o) = Ok tt.
Proof.
  intros u y r o A Hc Hl H1 H2.
  assert (S : snd (connect u y r (o_model o)) = Ok tt) by (apply connect_succeeds; [exact Hc|split; [exact Hl|split; assumption]]).
  unfold aligned in A. destruct A as [_ [_ [[U1 [U2 [U3 U4]]] [_ [_ [GY GU]]]]]].
  destruct (remove_at_find _ u _ _ U1) as [r1 E1]. destruct (remove_at_find _ u _ _ U2) as [r2 E2].
  destruct (remove_at_find _ u _ _ U3) as [r3 E3]. destruct (remove_at_find _ u _ _ U4) as [r4 E4].
  destruct (index_find _ u _ _ U1) as [i1 I1]. destruct (index_find _ u _ _ U2) as [i2 I2].
  unfold ocp_connect, cbind, cguard. rewrite (proj2 (Nat.eqb_eq _ _) Hl). cbn [negb].
  unfold on_model. destruct (connect u y r (o_model o)) as [m' [[]|e]]; [|discriminate].
  unfold cset, cret.
  destruct r; [|destruct (o_u_guess o) as [gu|] eqn:Eu; [destruct (o_y_guess o) as [gy|] eqn:Ey|]].
  - gfields. rewrite E2. gfields. rewrite E1. gfields.
    destruct (o_u_guess o) as [gu|] eqn:Eu.
    + simpl in GU. destruct (remove_at_find _ u _ _ GU) as [r5 E5]. rewrite E5. gfields. rewrite E4. gfields. rewrite E3. reflexivity.
    + gfields. rewrite E4. gfields. rewrite E3. reflexivity.
  - simpl in GU. destruct (remove_at_find _ u _ _ GU) as [r5 E5]. destruct (index_find _ u _ _ GU) as [i5 I5].
    gfields. rewrite I5. gfields. rewrite I2. gfields. rewrite I1. gfields. rewrite E2. gfields. rewrite E1. gfields.
    rewrite E5. gfields. rewrite E4. gfields. rewrite E3. reflexivity.
  - simpl in GU. destruct (remove_at_find _ u _ _ GU) as [r5 E5].
    gfields. rewrite I2. gfields. rewrite I1. gfields. rewrite E2. gfields. rewrite E1. gfields.
    rewrite E5. gfields. rewrite E4. gfields. rewrite E3. reflexivity.
  - gfields. rewrite I2. gfields. rewrite I1. gfields. rewrite E2. gfields. rewrite E1. gfields.
    rewrite E4. gfields. rewrite E3. reflexivity.
Qed.

(** ** Checks *)

Lemma check_exact : forall o, (pre_solve_check o = Ok tt <-> ready_to_solve o) /\
            (~ ready_to_solve o -> pre_solve_check o = Raise AnyException).
Proof.
  intros o. unfold pre_solve_check, ready_to_solve. cbv zeta.
  set (m := o_model o).
  assert (E : forall l : list (nat * nat), existsb (fun ab => negb (fst ab =? snd ab)%nat) l = false <->
                 Forall (fun ab => fst ab = snd ab) l).
  { induction l as [|[a b] l IH]; simpl; [split; [constructor|reflexivity]|].
    rewrite orb_false_iff, IH, negb_false_iff, Nat.eqb_eq. split.
    - intros [h1 h2]. constructor; assumption.
    - intros h. inversion h; subst. split; assumption. }
  destruct (Nat.eqb_spec (length (o_L o)) 1) as [HL|HL]; cbn [negb];
    [|split; [split; [discriminate|tauto]|reflexivity]].
  destruct (Nat.eqb_spec (length (o_V o)) 1) as [HV|HV]; cbn [negb];
    [|split; [split; [discriminate|tauto]|reflexivity]].
  match goal with |- context [existsb ?f ?l] => destruct (existsb f l) eqn:Ex; specialize (E l) end.
  - assert (N : ~ (Forall (fun ab : nat * nat => fst ab = snd ab)
       [(length (o_x_0 o), length (m_x m)); (length (o_x_max o), length (m_x m));
     (length (o_y_max o), length (m_y m)); (length (o_u_max o), length (m_u m));
     (length (o_x_min o), length (m_x m)); (length (o_y_min o), length (m_y m));
     (length (o_u_min o), length (m_u m)); (length (o_du_max o), length (m_u m));
     (length (o_du_min o), length (m_u m));
     (length (o_p_max o), length (o_p_opt o)); (length (o_p_min o), length (o_p_opt o));
     (length (o_th_min o), length (o_theta_opt o)); (length (o_th_max o), length (o_theta_opt o))])).
    { intros X. apply E in X. congruence. }
    split; [split; [discriminate|]|reflexivity]. intros X. exfalso. apply N. repeat constructor; cbn [fst snd]; tauto.
  - apply E in Ex. repeat match goal with X : Forall _ (_ :: _) |- _ => inversion X; subst; clear X end.
    cbn [fst snd] in *. split; [split; [intros _|reflexivity]|]; [tauto|]. intros X. exfalso. apply X. tauto.
Qed.

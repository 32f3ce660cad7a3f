(** Proofs about the tables of the result of a distributed method. *)
From Coq Require Import String QArith Permutation Lia.
From Verif Require Import Base DataModel FraModel FraSpec FraProofs DfrModel DfrSpec.
Local Open Scope list_scope.
Local Open Scope nat_scope.

Section Results.
  Variable arrange : list (Q * list (option Q)) -> list (Q * list (option Q)).
  Variable suffixed : list (string * string) -> list (string * string) -> list (string * string).
  Hypothesis arranges : forall l, Permutation (arrange l) l.
  Hypothesis Hs : suffixes suffixed.

  Lemma tables_full : forall a b t cells,
    row_shows (merge_tables arrange suffixed a b) t cells <->
    exists ca cb, row_shows a t ca /\ row_shows b t cb /\ cells = ca ++ cb.
  Proof.
    intros a b t cells. pose proof (merge_full arrange arranges a b t cells) as H.
    unfold full in H. unfold row_shows. rewrite <- H.
    replace (length (f_columns (outer_merge arrange a b))) with (length (f_columns (merge_tables arrange suffixed a b))).
    - split; intros X; exact X.
    - cbn [merge_tables outer_merge f_columns]. rewrite app_length. apply (Hs (f_columns a) (f_columns b)).
  Qed.
  Lemma tables_has : forall a b t,
    (exists c, has_row (merge_tables arrange suffixed a b) t c) <-> (exists c, has_row a t c) \/ (exists c, has_row b t c).
  Proof. intros a b t. exact (merge_has arrange arranges a b t). Qed.

  Lemma results_loop : forall ds f g, merge_results arrange suffixed (Some f) ds = Ok g ->
    exists h fs, g = Some h /\ Forall2 (fun d t => as_dataframe arrange d = Ok t) ds fs /\
      (forall t cells, row_shows h t cells <->
         exists c0 cs, row_shows f t c0 /\ Forall2 (fun x c => row_shows x t c) fs cs /\ cells = c0 ++ concat cs) /\
      (forall t, (exists c, has_row h t c) <-> (exists c, has_row f t c) \/ exists x c, In x fs /\ has_row x t c) /\
      (apart fs -> Forall (fun x => forall c, In c (f_columns f) -> ~ In c (f_columns x)) fs ->
       f_columns h = f_columns f ++ flat_map f_columns fs).
  Proof.
    induction ds as [|d ds IH]; intros f g H; cbn [merge_results] in H.
    - injection H as <-. exists f, []. split; [reflexivity|]. split; [constructor|]. split; [|split].
      + intros t cells. split.
        * intros A. exists cells, []. split; [exact A|]. split; [constructor|]. simpl. rewrite app_nil_r. reflexivity.
        * intros [c0 [cs [A [B ->]]]]. inversion B; subst. simpl. rewrite app_nil_r. exact A.
      + intros t. split; [intros A; left; exact A|]. intros [A|[x [c [[] _]]]]. exact A.
      + intros _ _. simpl. rewrite app_nil_r. reflexivity.
    - destruct (as_dataframe arrange d) as [fe|x] eqn:Ef; cbn in H; [|discriminate].
      destruct (IH _ _ H) as [h [fs [-> [F2 [Hf [Hh Hc]]]]]].
      exists h, (fe :: fs). split; [reflexivity|]. split; [constructor; [exact Ef|exact F2]|]. split; [|split].
      + intros t cells. rewrite Hf. split.
        * intros [c0 [cs [A [B ->]]]]. apply tables_full in A. destruct A as [ca [cb [A1 [A2 ->]]]].
          exists ca, (cb :: cs). split; [exact A1|]. split; [constructor; assumption|]. simpl. rewrite app_assoc. reflexivity.
        * intros [c0 [cs [A [B ->]]]]. inversion B as [|? cb ? cs' B1 B2]; subst.
          exists (c0 ++ cb), cs'. split; [|split; [exact B2|simpl; rewrite app_assoc; reflexivity]].
          apply tables_full. exists c0, cb. auto.
      + intros t. rewrite Hh, tables_has. split.
        * intros [[A|[c A]]|[x [c [A B]]]]; [left; exact A| |].
          { right. exists fe, c. split; [left; reflexivity|exact A]. }
          { right. exists x, c. split; [right; exact A|exact B]. }
        * intros [A|[x [c [[<-|A] B]]]]; [left; left; exact A|left; right; exists c; exact B|].
          right. exists x, c. split; assumption.
      + intros [P1 P2] Q. inversion Q as [|? ? Q1 Q2]; subst.
        assert (E : suffixed (f_columns f) (f_columns fe) = f_columns f ++ f_columns fe)
          by (apply (Hs (f_columns f) (f_columns fe)); exact Q1).
        rewrite Hc; [|exact P2|].
        * cbn [merge_tables f_columns flat_map]. rewrite E, app_assoc. reflexivity.
        * cbn [merge_tables f_columns]. rewrite E. rewrite Forall_forall in *. intros x Hx c Hin.
          apply in_app_iff in Hin. destruct Hin as [Hin|Hin]; [apply (Q2 x Hx c Hin)|apply (P1 x Hx c Hin)].
  Qed.

  Lemma w_results : forall ds f, results_table arrange suffixed ds = Ok f ->
    exists fs, Forall2 (fun d g => as_dataframe arrange d = Ok g) ds fs /\
      (forall t cells, has_row f t cells <->
         (exists g c, In g fs /\ has_row g t c) /\
         exists cs, Forall2 (fun g c => row_shows g t c) fs cs /\ cells = concat cs) /\
      (apart fs -> f_columns f = flat_map f_columns fs).
  Proof.
    intros [|d ds] f; unfold results_table; cbn [merge_results]; [discriminate|].
    destruct (as_dataframe arrange d) as [fe|x] eqn:Ef; cbn; [|discriminate].
    destruct (merge_results arrange suffixed (Some fe) ds) as [g|x] eqn:El; cbn; [|discriminate].
    destruct (results_loop _ _ _ El) as [h [fs [-> [F2 [Hf [Hh Hc]]]]]]. intros H. injection H as <-.
    exists (fe :: fs). split; [constructor; [exact Ef|exact F2]|]. split.
    - intros t cells.
      assert (Hall : (exists c, has_row h t c) <-> exists g c, In g (fe :: fs) /\ has_row g t c).
      { rewrite Hh. split.
        - intros [[c A]|[g [c [A B]]]]; [exists fe, c; split; [left; reflexivity|exact A]|].
          exists g, c. split; [right; exact A|exact B].
        - intros [g [c [[<-|A] B]]]; [left; exists c; exact B|right; exists g, c; split; assumption]. }
      assert (Hrow : row_shows h t cells <-> exists cs, Forall2 (fun g c => row_shows g t c) (fe :: fs) cs /\ cells = concat cs).
      { rewrite Hf. split.
        - intros [c0 [cs [A [B ->]]]]. exists (c0 :: cs). split; [constructor; assumption|reflexivity].
        - intros [cs [B ->]]. inversion B as [|? cb ? cs' B1 B2]; subst. exists cb, cs'. auto. }
      rewrite <- Hall, <- Hrow. split.
      + intros A. split; [exists cells; exact A|left; exact A].
      + intros [[c A] [B|[N _]]]; [exact B|contradiction (N c A)].
    - intros [P1 P2]. apply (Hc P2). exact P1.
  Qed.

  Lemma results_runs : forall ds df,
    Forall (fun d => exists f, as_dataframe arrange d = Ok f) ds ->
    exists g, merge_results arrange suffixed df ds = Ok g /\ (g = None -> df = None /\ ds = []).
  Proof.
    induction ds as [|d ds IH]; intros df H; cbn [merge_results].
    - exists df. split; [reflexivity|]. intros E. split; [exact E|reflexivity].
    - inversion H as [|? ? [f Ef] H2]; subst. rewrite Ef. cbn.
      destruct (IH (Some match df with Some a => merge_tables arrange suffixed a f | None => f end) H2) as [g [G1 G2]].
      exists g. split; [exact G1|]. intros E. destruct (G2 E) as [X _]. discriminate.
  Qed.
  Lemma results_stop : forall ds df g, merge_results arrange suffixed df ds = Ok g ->
    Forall (fun d => exists f, as_dataframe arrange d = Ok f) ds.
  Proof.
    induction ds as [|d ds IH]; intros df g H; cbn [merge_results] in H; [constructor|].
    destruct (as_dataframe arrange d) as [f|x] eqn:Ef; cbn in H; [|discriminate].
    constructor; [exists f; exact Ef|]. apply (IH _ _ H).
  Qed.

  Lemma w_results_when : forall ds,
    results_table arrange suffixed [] = Raise ValueError /\
    ((exists f, results_table arrange suffixed ds = Ok f) <->
     ds <> [] /\ Forall (fun d => exists f, as_dataframe arrange d = Ok f) ds).
  Proof.
    intros ds. split; [reflexivity|]. unfold results_table. split.
    - intros [f H]. destruct (merge_results arrange suffixed None ds) as [g|x] eqn:E; cbn in H; [|discriminate].
      split; [|apply (results_stop _ _ _ E)]. intros ->. cbn in E. injection E as <-. discriminate.
    - intros [N H]. destruct (results_runs ds None H) as [g [G1 G2]]. rewrite G1. cbn.
      destruct g as [f|]; [exists f; reflexivity|]. destruct (G2 eq_refl) as [_ X]. contradiction.
  Qed.
End Results.

(** ** The violations *)

Definition node_rows (width : nat) (m : mat) : list (nat * list (option Q)) :=
  map (fun jc => (fst jc, map Some (snd jc) ++ repeat None (width - mrows m)))
      (combine (seq 0 (length (mcols m))) (mcols m)).

Lemma combine_map_r {A B C : Type} : forall (g : B -> C) (l : list A) (l' : list B),
  combine l (map g l') = map (fun ab => (fst ab, g (snd ab))) (combine l l').
Proof. induction l as [|a l IH]; intros [|b l']; try reflexivity. simpl. rewrite IH. reflexivity. Qed.

Lemma node_rows_table : forall m w, mrows m <= w ->
  map (widened (w - mrows m)) (nb_rows (node_table m)) = node_rows w m.
Proof.
  intros m w H. unfold node_rows. cbn [node_table nb_rows]. rewrite combine_map_r, map_map. reflexivity.
Qed.
Lemma node_rows_widen : forall m w n, mrows m <= w -> map (widened n) (node_rows w m) = node_rows (w + n) m.
Proof.
  intros m w n H. unfold node_rows. rewrite map_map. apply map_ext. intros [j c]. unfold widened. cbn [fst snd].
  rewrite <- app_assoc, <- repeat_app. do 3 f_equal. lia.
Qed.
Lemma map_widened_0 : forall l, map (widened 0) l = l.
Proof.
  intros l. rewrite <- (map_id l) at 2. apply map_ext. intros [j c]. unfold widened. simpl. rewrite app_nil_r. reflexivity.
Qed.

Lemma violations_fold : forall errors done a,
  nb_rows a = flat_map (node_rows (nb_width a)) done -> Forall (fun m => mrows m <= nb_width a) done ->
  (exists m, In m done /\ mrows m = nb_width a) ->
  exists b, fold_left (fun df error => Some (match df with
                                         | Some a => concat_rows a (node_table error)
                                         | None => node_table error
                                         end)) errors (Some a) = Some b /\
    nb_rows b = flat_map (node_rows (nb_width b)) (done ++ errors) /\
    Forall (fun m => mrows m <= nb_width b) (done ++ errors) /\
    exists m, In m (done ++ errors) /\ mrows m = nb_width b.
Proof.
  induction errors as [|e errors IH]; intros done a Hr Hw Hm; cbn [fold_left].
  - exists a. rewrite app_nil_r. auto.
  - destruct (IH (done ++ [e]) (concat_rows a (node_table e))) as [b Hb].
    + cbn [concat_rows nb_rows nb_width]. rewrite flat_map_app. cbn [flat_map]. rewrite app_nil_r. f_equal.
      * rewrite Hr. cbn [node_table nb_width]. clear Hr Hm IH. induction done as [|m done ID]; [reflexivity|].
        inversion Hw as [|? ? W1 W2]; subst. cbn [flat_map]. rewrite map_app, ID by exact W2. f_equal.
        rewrite node_rows_widen by exact W1. f_equal. lia.
      * rewrite <- node_rows_table by (cbn [node_table nb_width]; lia). cbn [node_table nb_width].
        replace (Nat.max (nb_width a) (mrows e) - mrows e) with (nb_width a - mrows e) by lia. reflexivity.
    + cbn [concat_rows nb_width node_table]. apply Forall_app. split; [|repeat constructor; lia].
      eapply Forall_impl; [|exact Hw]. cbn beta. intros m Hle. lia.
    + cbn [concat_rows nb_width node_table]. destruct (Nat.max_spec (nb_width a) (mrows e)) as [[_ E]|[_ E]]; rewrite E.
      * exists e. split; [apply in_app_iff; right; left; reflexivity|reflexivity].
      * destruct Hm as [m [M1 M2]]. exists m. split; [apply in_app_iff; left; exact M1|exact M2].
    + exists b. rewrite <- app_assoc in Hb. exact Hb.
Qed.

Lemma w_violations : forall errors,
  (errors = [] -> constraint_violations errors = Raise ValueError) /\
  (errors <> [] -> exists T, constraint_violations errors = Ok T /\
     Forall (fun m => mrows m <= nb_width T) errors /\
     (exists m, In m errors /\ mrows m = nb_width T) /\
     nb_rows T = flat_map (fun m => map (fun jc => (fst jc, map Some (snd jc) ++ repeat None (nb_width T - mrows m)))
                                        (combine (seq 0 (length (mcols m))) (mcols m))) errors /\
     (Forall rectangular errors -> Forall (fun r => length (snd r) = nb_width T) (nb_rows T))).
Proof.
  intros errors. split; [intros ->; reflexivity|]. intros N. destruct errors as [|e errors]; [contradiction|].
  unfold constraint_violations. cbn [fold_left].
  destruct (violations_fold errors [e] (node_table e)) as [b [B1 [B2 [B3 B4]]]].
  - cbn [flat_map]. rewrite app_nil_r. rewrite <- node_rows_table by (cbn [node_table nb_width]; lia).
    cbn [node_table nb_width]. rewrite Nat.sub_diag, map_widened_0. reflexivity.
  - repeat constructor.
  - exists e. split; [left; reflexivity|reflexivity].
  - rewrite B1. exists b. split; [reflexivity|]. split; [exact B3|]. split; [exact B4|]. split; [exact B2|].
    intros R. rewrite B2. apply Forall_forall. intros r Hr. apply in_flat_map in Hr. destruct Hr as [m [Hm Hr]].
    cbn [app] in *. rewrite Forall_forall in R, B3. specialize (R m Hm). specialize (B3 m Hm).
    unfold node_rows in Hr. apply in_map_iff in Hr. destruct Hr as [[j c] [<- Hr]]. apply in_combine_r in Hr.
    unfold rectangular in R. rewrite Forall_forall in R. specialize (R c Hr).
    cbn [fst snd]. rewrite app_length, map_length, repeat_length. lia.
Qed.

Lemma w_labels : exists errors T i j r1 r2, constraint_violations errors = Ok T /\ i <> j /\
  nth_error (nb_rows T) i = Some r1 /\ nth_error (nb_rows T) j = Some r2 /\ fst r1 = fst r2 /\ snd r1 <> snd r2.
Proof.
  exists two_errors. eexists. exists 0, 2. do 2 eexists. split; [reflexivity|]. split; [discriminate|].
  split; [reflexivity|]. split; [reflexivity|]. split; [reflexivity|]. discriminate.
Qed.

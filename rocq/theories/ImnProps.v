(** Property C48: intermediary nodes. *)
From Coq Require Import String Lia.
From Verif Require Import Base UtilModel ExprModel AugModel ImnModel ImnSpec UtilProofs ImnProofs ImnMoreProofs.
Local Open Scope list_scope.

(** After its construction every multiplier of the method is zero and every penalty is the
    one of the options; nothing was reported or prepared. *)
Theorem C48_start : forall opts n s, s = imn_start opts n ->
  st_mu (im_state s) = repeat (al_mu_0 opts) (2 * n) /\
  holds (al_degree opts) (al_elements opts) (repeat (fun _ _ => 0%Q) (2 * n)) (st_nu (im_state s)) /\
  st_last (im_state s) = None /\ im_tilde s = None.
Proof. exact imn_starts. Qed.
Print Assumptions C48_start.

(** With scalar connections ([y] from the first neighbour, [u] from the second), solving
    gives at every point the unique minimiser of the augmented Lagrangian, which is the
    average when the multipliers are equal; the method is not changed. *)
Theorem C48_minimises : forall opts th p s mu y u n1 n2,
  1 <= al_degree opts -> 1 <= al_elements opts ->
  holds (al_degree opts) (al_elements opts) [y; u] th ->
  holds (al_degree opts) (al_elements opts) [n1; n2] (st_nu (im_state s)) ->
  nth_error (match p with Some v => v | None => [] end ++ st_mu (im_state s)) 0 = Some mu ->
  (0 < mu)%Q ->
  exists r v, imn_solve opts (Some th) p s = (s, Ok r) /\
    ir_x r = by_points (al_degree opts) (al_elements opts) v /\
    ir_p r = match p with Some v => v | None => [] end ++ st_mu (im_state s) /\
    (forall el, el < al_elements opts ->
       dget Nat.eqb el (ir_theta r) = Some (flat_map (fun f => map (f el) (seq 0 (al_degree opts))) [y; u; n1; n2])) /\
    imn_data opts r = Ok (map (fun el => map (v el) (seq 0 (al_degree opts))) (seq 0 (al_elements opts))) /\
    forall el j, el < al_elements opts -> j < al_degree opts ->
      unique_minimiser (node_lagrangian mu (y el j) (u el j) (n1 el j) (n2 el j)) (v el j) /\
      ((n1 el j == n2 el j)%Q -> (v el j == (y el j + u el j) / 2)%Q).
Proof. exact imn_solves. Qed.
Print Assumptions C48_minimises.

(** That Lagrangian is what the augmented Lagrangian method adds for the two relaxed
    equations, with one penalty. *)
Theorem C48_lagrangian : forall F env (nu1 nu2 mu1 mu2 : sym) (g1 g2 : expr) (y u v : Q),
  (env mu1 == env mu2)%Q -> (eval F env g1 == v - y)%Q -> (eval F env g2 == u - v)%Q ->
  (eval F env (penalty [nu1; nu2] [mu1; mu2] [g1; g2]) ==
   node_lagrangian (env mu1) y u (env nu1) (env nu2) v)%Q.
Proof. exact penalty_is_lagrangian. Qed.
Print Assumptions C48_lagrangian.

(** An update reports the largest gap on each side, and prepares the multipliers increased
    by the gaps times the penalty. *)
Theorem C48_update : forall opts th p s mu y u n1 n2 v raw,
  1 <= al_degree opts -> 1 <= al_elements opts ->
  al_skip_compute opts = false -> al_skip_nu opts = false -> al_improve opts = false ->
  In (al_rule opts) ["constant"; "primal"; "primal-dual"; "bounded-increase"]%string ->
  holds (al_degree opts) (al_elements opts) [y; u] th ->
  holds (al_degree opts) (al_elements opts) [n1; n2] (st_nu (im_state s)) ->
  nth_error (match p with Some v => v | None => [] end ++ st_mu (im_state s)) 0 = Some mu ->
  raw = by_points (al_degree opts) (al_elements opts) v ->
  exists s' e1 e2 d, imn_update opts (Some th) p raw s = (s', Ok [e1; e2]) /\
    largest (al_degree opts) (al_elements opts) (fun el j => v el j - y el j)%Q e1 /\
    largest (al_degree opts) (al_elements opts) (fun el j => u el j - v el j)%Q e2 /\
    st_last (im_state s') = Some [e1; e2] /\
    im_tilde s' = Some d /\
    forall el, el < al_elements opts ->
      dget Nat.eqb el d =
      Some (map (fun j => n1 el j + mu * (v el j - y el j))%Q (seq 0 (al_degree opts)),
            map (fun j => n2 el j + mu * (u el j - v el j))%Q (seq 0 (al_degree opts))).
Proof. exact imn_updates. Qed.
Print Assumptions C48_update.

(** After an update with its own solution the two sides get equal multipliers. *)
Theorem C48_balanced : forall opts th p s mu y u n1 n2,
  1 <= al_degree opts -> 1 <= al_elements opts ->
  al_skip_compute opts = false -> al_skip_nu opts = false -> al_improve opts = false ->
  In (al_rule opts) ["constant"; "primal"; "primal-dual"; "bounded-increase"]%string ->
  holds (al_degree opts) (al_elements opts) [y; u] th ->
  holds (al_degree opts) (al_elements opts) [n1; n2] (st_nu (im_state s)) ->
  nth_error (match p with Some v => v | None => [] end ++ st_mu (im_state s)) 0 = Some mu ->
  (0 < mu)%Q ->
  exists r s' errors d m1 m2,
    imn_solve opts (Some th) p s = (s, Ok r) /\
    imn_update opts (Some th) p (ir_x r) s = (s', Ok errors) /\
    im_tilde s' = Some d /\
    forall el, el < al_elements opts ->
      dget Nat.eqb el d = Some (map (m1 el) (seq 0 (al_degree opts)), map (m2 el) (seq 0 (al_degree opts))) /\
      forall j, (m1 el j == m2 el j)%Q.
Proof. exact imn_balanced. Qed.
Print Assumptions C48_balanced.

Example C48_example :
  holds 2 2 [canal_y; canal_u] canal_theta /\
  (exists s' r, imn_solve canal_options (Some canal_theta) None canal_node = (s', Ok r) /\
                map Qred (ir_x r) = [6; 4; 1; 3]%Q) /\
  (exists s' e, imn_update canal_options (Some canal_theta) None [6; 4; 1; 3]%Q canal_node = (s', Ok e) /\
                e = [3; 1]%Q /\
                im_tilde s' = Some [(0%nat, ([7; 3]%Q, [7; 3]%Q)); (1%nat, ([0; 2]%Q, [0; 2]%Q))]).
Proof.
  split; [|split].
  - split; [reflexivity|]. intros [|[|el]] H; [reflexivity|reflexivity|lia].
  - eexists; eexists; split; vm_compute; reflexivity.
  - eexists; eexists; split; [vm_compute; reflexivity|]. split; vm_compute; reflexivity.
Qed.

(** Without computing, an update reports one zero and changes no multiplier. *)
Theorem C48_skip : forall opts th p s y u n1 n2 raw,
  1 <= al_elements opts ->
  al_skip_compute opts = true ->
  In (al_rule opts) ["constant"; "primal"; "primal-dual"; "bounded-increase"]%string ->
  holds (al_degree opts) (al_elements opts) [y; u] th ->
  holds (al_degree opts) (al_elements opts) [n1; n2] (st_nu (im_state s)) ->
  exists s', imn_update opts (Some th) p raw s = (s', Ok [0%Q]) /\
    st_last (im_state s') = Some [0%Q] /\ st_nu (im_state s') = st_nu (im_state s) /\
    im_tilde s' = im_tilde s.
Proof. exact imn_skips. Qed.
Print Assumptions C48_skip.

(** When multipliers are not to be updated, the gaps are still reported. *)
Theorem C48_keep : forall opts th p s mu y u n1 n2 v raw,
  1 <= al_degree opts -> 1 <= al_elements opts ->
  al_skip_compute opts = false -> al_skip_nu opts = true ->
  In (al_rule opts) ["constant"; "primal"; "primal-dual"; "bounded-increase"]%string ->
  holds (al_degree opts) (al_elements opts) [y; u] th ->
  holds (al_degree opts) (al_elements opts) [n1; n2] (st_nu (im_state s)) ->
  nth_error (match p with Some v => v | None => [] end ++ st_mu (im_state s)) 0 = Some mu ->
  raw = by_points (al_degree opts) (al_elements opts) v ->
  exists s' e1 e2, imn_update opts (Some th) p raw s = (s', Ok [e1; e2]) /\
    largest (al_degree opts) (al_elements opts) (fun el j => v el j - y el j)%Q e1 /\
    largest (al_degree opts) (al_elements opts) (fun el j => u el j - v el j)%Q e2 /\
    st_last (im_state s') = Some [e1; e2] /\
    im_tilde s' = im_tilde s.
Proof. exact imn_keeps_tilde. Qed.
Print Assumptions C48_keep.

(** When only what improved is to be updated, a side whose largest gap became smaller gets,
    in every element, the new multiplier at the first point and keeps the others; the other
    side keeps all of them. *)
Theorem C48_improvement : forall opts th p s mu y u n1 n2 v raw l1 l2 d,
  1 <= al_degree opts -> 1 <= al_elements opts ->
  al_skip_compute opts = false -> al_skip_nu opts = false -> al_improve opts = true ->
  In (al_rule opts) ["constant"; "primal"; "primal-dual"; "bounded-increase"]%string ->
  holds (al_degree opts) (al_elements opts) [y; u] th ->
  holds (al_degree opts) (al_elements opts) [n1; n2] (st_nu (im_state s)) ->
  nth_error (match p with Some v => v | None => [] end ++ st_mu (im_state s)) 0 = Some mu ->
  raw = by_points (al_degree opts) (al_elements opts) v ->
  st_last (im_state s) = Some [l1; l2] -> im_tilde s = Some d ->
  (forall el, In el (dkeys d) -> el < al_elements opts) ->
  exists s' e1 e2, imn_update opts (Some th) p raw s = (s', Ok [e1; e2]) /\
    largest (al_degree opts) (al_elements opts) (fun el j => v el j - y el j)%Q e1 /\
    largest (al_degree opts) (al_elements opts) (fun el j => u el j - v el j)%Q e2 /\
    st_last (im_state s') = Some [e1; e2] /\
    ((0 < e1)%Q \/ (0 < e2)%Q ->
     exists d', im_tilde s' = Some d' /\ dkeys d' = dkeys d /\
       forall el r1 r2, dget Nat.eqb el d = Some (r1, r2) ->
       exists r1' r2', dget Nat.eqb el d' = Some (r1', r2') /\
         ((l1 <= e1)%Q -> r1' = r1) /\
         ((e1 < l1)%Q -> head_replaced (n1 el 0%nat + mu * (v el 0%nat - y el 0%nat))%Q r1 r1') /\
         ((l2 <= e2)%Q -> r2' = r2) /\
         ((e2 < l2)%Q -> head_replaced (n2 el 0%nat + mu * (u el 0%nat - v el 0%nat))%Q r2 r2')).
Proof. exact imn_improves. Qed.
Print Assumptions C48_improvement.

Example C48_improvement_example :
  (exists s', imn_update canal_improving (Some canal_theta) None [6; 4; 1; 3]%Q canal_later = (s', Ok [3; 1]%Q) /\
     im_tilde s' = Some [(0%nat, ([7; 11]%Q, [12; 13]%Q)); (1%nat, ([0; 15]%Q, [16; 17]%Q))]) /\
  (forall el, In el (dkeys canal_tilde) -> el < al_elements canal_improving) /\
  (exists s', imn_update canal_skipping (Some canal_theta) None [6; 4; 1; 3]%Q canal_later = (s', Ok [0]%Q) /\
     im_tilde s' = Some canal_tilde) /\
  (exists s', imn_update canal_keeping (Some canal_theta) None [6; 4; 1; 3]%Q canal_later = (s', Ok [3; 1]%Q) /\
     im_tilde s' = Some canal_tilde).
Proof.
  split; [|split; [|split]].
  - eexists; split; vm_compute; reflexivity.
  - intros el H. simpl in *. lia.
  - eexists; split; vm_compute; reflexivity.
  - eexists; split; vm_compute; reflexivity.
Qed.

(** Refutation of "a side whose gaps became smaller gets its new multipliers": only those of
    the first point are stored. *)
Theorem C48_improvement_refuted : exists opts th s s' l1 l2 e1 e2 s2 d d2 el r1 r1' r2 r2',
  al_improve opts = true /\
  st_last (im_state s) = Some [l1; l2] /\
  imn_update opts (Some th) None [6; 4; 1; 3]%Q s = (s', Ok [e1; e2]) /\ (e1 < l1)%Q /\
  imn_update (set_improve false opts) (Some th) None [6; 4; 1; 3]%Q s = (s2, Ok [e1; e2]) /\
  im_tilde s' = Some d /\ im_tilde s2 = Some d2 /\
  dget Nat.eqb el d = Some (r1, r2) /\ dget Nat.eqb el d2 = Some (r1', r2') /\
  ~ Forall2 Qeq r1 r1'.
Proof. exact canal_improvement_refuted. Qed.
Print Assumptions C48_improvement_refuted.

(** Refutation of "the multipliers prepared by an update are used from then on": whatever
    is done with the method after its construction, solving gives the average. *)
Theorem C48_multipliers_used_refuted : forall opts ops th p y u r s',
  1 <= al_degree opts -> 1 <= al_elements opts ->
  holds (al_degree opts) (al_elements opts) [y; u] th ->
  imn_solve opts (Some th) p (imn_run opts ops (imn_start opts 1)) = (s', Ok r) ->
  exists v, ir_x r = by_points (al_degree opts) (al_elements opts) v /\
    forall el j, (v el j == (y el j + u el j) / 2)%Q.
Proof. exact imn_always_averages. Qed.
Print Assumptions C48_multipliers_used_refuted.

Example C48_multipliers_used_example :
  exists s' r,
    imn_solve canal_options (Some canal_theta) None
      (imn_run canal_options [ImSolve (Some canal_theta) None; ImUpdate (Some canal_theta) None [9; 9; 9; 9]%Q]
               (imn_start canal_options 1)) = (s', Ok r) /\
    im_tilde s' = Some [(0%nat, ([6; 6]%Q, [-2; -4]%Q)); (1%nat, ([8; 7]%Q, [-8; -5]%Q))] /\
    map Qred (ir_x r) = [5; 4; 1; 3]%Q.
Proof. eexists; eexists; split; [vm_compute; reflexivity|]. split; vm_compute; reflexivity. Qed.

(** With connections of two entries the outputs and inputs are mixed up. *)
Theorem C48_vectors : forall opts th s mu y1 y2 u1 u2 gs,
  1 <= al_degree opts -> 1 <= al_elements opts ->
  holds (al_degree opts) (al_elements opts) [y1; y2; u1; u2] th ->
  holds (al_degree opts) (al_elements opts) gs (st_nu (im_state s)) ->
  nth_error (st_mu (im_state s)) 0 = Some mu -> ~ (mu == 0)%Q ->
  exists r v, imn_solve opts (Some th) None s = (s, Ok r) /\
    ir_x r = by_points (al_degree opts) (al_elements opts) v /\
    forall el j, (v el j == (u2 el j - u1 el j) / (2 * mu) + (y1 el j + y2 el j) / 2)%Q.
Proof. exact imn_pairs. Qed.
Print Assumptions C48_vectors.

(** Refutation of "connections of several entries are solved entry by entry": neighbours
    that agree on 3 and 5 are given 5 everywhere, and one value instead of two. *)
Theorem C48_vectors_refuted : exists opts (th : theta Q) y1 y2 u1 u2 r,
  holds (al_degree opts) (al_elements opts) [y1; y2; u1; u2] th /\
  imn_solve opts (Some th) None (imn_start opts 2) = (imn_start opts 2, Ok r) /\
  (forall el j, y1 el j == 3 /\ u1 el j == 3 /\ y2 el j == 5 /\ u2 el j == 5)%Q /\
  length (ir_x r) = (al_degree opts * al_elements opts)%nat /\
  Forall (fun x => x == 5)%Q (ir_x r).
Proof. exact pond_pair_refuted. Qed.
Print Assumptions C48_vectors_refuted.

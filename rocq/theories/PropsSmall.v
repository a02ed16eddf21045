(** What the bandit search does when the training rows fit in one batch. *)
From Coq Require Import List Arith Bool ZArith QArith Qcanon.
From Verif Require Import Base Num Rng Histogram Utils Criteria Solvers Tree Forest Spec SolverSpec TreeSpec TrainSpec ForestSpec BanditSpec BatchSpec SmallTree SmallTrain Samples TreeWitness InvarWitness ForestWitness TrainWitness BudgetWitness BanditWitness BatchWitness SmallWitness.
Import ListNotations.
Local Open Scope nat_scope.

(** ** C179: leaves *)
Theorem C179_bandit_leaf : forall P M c a e t W, trainable c a W -> built P M c a e t -> forall id nd,
  tc_solver c = MAB -> tc_class c = true -> tc_bin c = LINEAR -> 1 <= tc_batch c -> bins_ok c -> ranges_cover c a ->
  ta_budget a = None -> tc_max_leaves c <> Some (length (t_leaves t)) -> In id (t_leaves t) -> node_at t id nd ->
  below_depth c (nd_depth nd) -> tc_min_split c < length (node_rows t id) -> varied (labels_at (ta_labels a) (node_rows t id)) ->
  5 < bins_at c (node_rows t id) * length (filter (scanned c a (node_rows t id)) (nd_feats nd)) ->
  exists J E, batch_of (tc_batch c) (tc_repl c) (node_rows t id) J /\
    (forall f' s', nth_error (nd_feats nd) f' = Some s' -> thresholds c a (node_rows t id) s' (E f')) /\
    (forall f' s' v', nth_error (nd_feats nd) f' = Some s' -> In v' (E f') ->
       let gain := split_change M c a J s' v' in
       (0 <= gain)%Qc \/ (tc_min_imp c <= nd_prop nd * gain)%Qc \/
       (tc_min_imp c <= nd_prop nd * gain * (rat (length (node_rows t id)) / rat (length (ta_labels a))))%Qc).
Proof. exact bandit_stop. Qed.
Print Assumptions C179_bandit_leaf.
Example C179_ex_leaf : trainable (band_cfg true MAB 2 5) two_args 1 /\ bins_ok (band_cfg true MAB 2 5) /\ ranges_cover (band_cfg true MAB 2 5) two_args /\ ta_budget two_args = None /\ tc_max_leaves (band_cfg true MAB 2 5) = None /\
  check (run_with P0 M0 (band_cfg true MAB 2 5) two_args env0) alone = true.
Proof. split; [apply two_trainable|]. split; [right; cbn; repeat constructor|]. split; [exact Logic.I|]. split; [reflexivity|]. split; [reflexivity|exact two_alone]. Qed.

(** ** C180: rows that fit in one batch, both tasks *)
Theorem C180_small_split : forall P M c a e t W, trainable c a W -> built P M c a e t ->
  tc_solver c = MAB -> tc_bin c <> IDENTITY -> bins_ok c -> tc_log_split c = false -> 6 <= tc_nb c -> length (train_rows a) <= tc_batch c ->
  forall id nd, node_at t id nd -> nd_left nd <> None ->
  exists s v E f, nd_sf nd = Some s /\ nd_sv nd = Some v /\ nth_error (nd_feats nd) f = Some s /\ In v (E f) /\
    nd_red nd = Some (Fin (split_change M c a (node_rows t id) s v * nd_prop nd)%Qc) /\ (split_change M c a (node_rows t id) s v < 0)%Qc /\
    (forall f' s', nth_error (nd_feats nd) f' = Some s' -> thresholds c a (node_rows t id) s' (E f')) /\
    (forall f' s' v', nth_error (nd_feats nd) f' = Some s' -> In v' (E f') ->
       (split_change M c a (node_rows t id) s v <= split_change M c a (node_rows t id) s' v')%Qc).
Proof. exact small_split. Qed.
Print Assumptions C180_small_split.
Theorem C180_small_leaf : forall P M c a e t W, trainable c a W -> built P M c a e t ->
  tc_solver c = MAB -> tc_bin c <> IDENTITY -> bins_ok c -> tc_log_split c = false -> 6 <= tc_nb c -> length (train_rows a) <= tc_batch c ->
  forall id nd, ta_budget a = None -> tc_max_leaves c <> Some (length (t_leaves t)) -> In id (t_leaves t) -> node_at t id nd ->
  below_depth c (nd_depth nd) -> tc_min_split c < length (node_rows t id) -> varied (labels_at (ta_labels a) (node_rows t id)) ->
  exists E, (forall f' s', nth_error (nd_feats nd) f' = Some s' -> thresholds c a (node_rows t id) s' (E f')) /\
    (forall f' s' v', nth_error (nd_feats nd) f' = Some s' -> In v' (E f') ->
       let gain := split_change M c a (node_rows t id) s' v' in
       (0 <= gain)%Qc \/ (tc_min_imp c <= nd_prop nd * gain)%Qc \/
       (tc_min_imp c <= nd_prop nd * gain * (rat (length (node_rows t id)) / rat (length (ta_labels a))))%Qc).
Proof. exact small_leaf. Qed.
Print Assumptions C180_small_leaf.
Theorem C180_small_queries : forall P M c a e t W, trainable c a W -> built P M c a e t ->
  tc_solver c = MAB -> tc_bin c <> IDENTITY -> bins_ok c -> tc_log_split c = false -> 6 <= tc_nb c -> length (train_rows a) <= tc_batch c ->
  exists ids, NoDup ids /\ (forall id, In id ids -> may_split c a t id) /\
    t_queries t = list_sum (map (fun id => full_price c a (node_rows t id) (node_feats t id)) ids) /\
    (ta_budget a = None -> tc_max_leaves c <> Some (length (t_leaves t)) -> forall id, may_split c a t id -> In id ids).
Proof. exact small_queries. Qed.
Print Assumptions C180_small_queries.
Theorem C180_small_accounts : forall P M c a e t W, trainable c a W -> built P M c a e t ->
  tc_solver c = MAB -> tc_bin c <> IDENTITY -> bins_ok c -> tc_log_split c = false -> 6 <= tc_nb c -> length (train_rows a) <= tc_batch c ->
  leaf_impurity M c a t = (tree_impurity M c (train_labels a) + split_changes t)%Qc.
Proof. exact small_accounts. Qed.
Print Assumptions C180_small_accounts.
Theorem C180_small_training : forall P M c a e t W, trainable c a W -> built P M c a e t ->
  tc_solver c = MAB -> tc_bin c <> IDENTITY -> bins_ok c -> tc_log_split c = false -> 6 <= tc_nb c -> length (train_rows a) <= tc_batch c ->
  forall ps t', tc_class c = false -> tree_predict_batch c t (train_points a) = Ok (ps, t') ->
  (sq_error (train_labels a) (map number_of ps) = rat (length (train_rows a)) * (variance (train_labels a) + split_changes t))%Qc.
Proof. exact small_training. Qed.
Print Assumptions C180_small_training.
(** The rows of C179_separable_refuted with a batch of twenty: the tree splits where the classes part. *)
Example C180_ex : trainable (band_cfg true MAB 2 20) two_args 1 /\ bins_ok (band_cfg true MAB 2 20) /\ length (train_rows two_args) <= tc_batch (band_cfg true MAB 2 20) /\
  check (run_with P0 M0 (band_cfg true MAB 2 20) two_args env0) (fun t => root_at (z 19 * (z 2 / z 5))%Qc t && (t_splits t =? 1) && (t_queries t =? 20)) = true.
Proof. split; [apply two_trainable|]. split; [right; cbn; repeat constructor|]. split; [cbn; repeat constructor|vm_compute; reflexivity]. Qed.
Example C180_ex_regression : trainable (band_cfg false MAB 2 8) regr_args 1 /\ length (train_rows regr_args) <= tc_batch (band_cfg false MAB 2 8) /\
  check (run_with P0 M0 (band_cfg false MAB 2 8) regr_args env0) (fun t => root_at (z 21 / z 5)%Qc t && (t_splits t =? 3) && (t_queries t =? 16)) = true.
Proof. split; [apply regr_trains|]. split; [cbn; repeat constructor|vm_compute; reflexivity]. Qed.
(** The tree need not be that of the exhaustive search: among equally good splits the two choose differently. *)
Theorem C180_same_tree_refuted : exists P M c c' a e t t' nd nd' W, trainable c a W /\ trainable c' a W /\ built P M c a e t /\ built P M c' a e t' /\ c = band_cfg true MAB 2 6 /\ c' = band_cfg true EXACT 2 6 /\
  length (train_rows a) <= tc_batch c /\ node_at t 0 nd /\ node_at t' 0 nd' /\ nd_sv nd <> nd_sv nd'.
Proof. exact tie_differs. Qed.
Print Assumptions C180_same_tree_refuted.

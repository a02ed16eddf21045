(** What a fit with the bandit search costs. *)
From Coq Require Import List Arith Bool ZArith QArith Qcanon.
From Verif Require Import Base Num Rng Histogram Utils Criteria Solvers Tree Forest Spec SolverSpec TreeSpec TrainSpec ForestSpec BanditSpec BanditThms BanditForest Samples TreeWitness InvarWitness ForestWitness TrainWitness BudgetWitness BanditWitness.
Import ListNotations.
Local Open Scope nat_scope.

(** ** C177: a classification tree pays one batch per node, whatever the number of rows *)
Theorem C177_bandit_tree_queries : forall P M c a e t W, trainable c a W -> built P M c a e t ->
  tc_solver c = MAB -> tc_class c = true -> tc_bin c = LINEAR -> 1 <= tc_batch c -> bins_ok c -> ranges_cover c a ->
  exists ids, NoDup ids /\ (forall id, In id ids -> may_split c a t id) /\
    t_queries t = list_sum (map (fun id => batch_price c a (node_rows t id) (node_feats t id)) ids) /\
    (ta_budget a = None -> tc_max_leaves c <> Some (length (t_leaves t)) -> forall id, may_split c a t id -> In id ids).
Proof. exact bandit_tree_queries. Qed.
Print Assumptions C177_bandit_tree_queries.
Theorem C177_bandit_tree_bound : forall P M c a e t W, trainable c a W -> built P M c a e t ->
  tc_solver c = MAB -> tc_class c = true -> tc_bin c = LINEAR -> 1 <= tc_batch c -> bins_ok c -> ranges_cover c a ->
  t_queries t <= tc_batch c * most_feats (tc_fsub c) (length (train_feats a)) * S (2 * t_splits t) /\
  (forall z, tc_max_depth c = DFin z -> t_queries t <= tc_batch c * most_feats (tc_fsub c) (length (train_feats a)) * (2 ^ Z.to_nat z - 1)) /\
  (forall m, tc_max_leaves c = Some m -> t_queries t <= tc_batch c * most_feats (tc_fsub c) (length (train_feats a)) * (2 * m - 1)).
Proof. exact bandit_tree_bound. Qed.
Print Assumptions C177_bandit_tree_bound.
Theorem C177_forest_bound : forall M P c f arg h e f' h' e' data W, forest_trainable c f arg h data W -> forest_fit M P c f arg h e = Ok (f', h', e') ->
  fc_solver c = MAB -> fc_class c = true -> fc_bin c = LINEAR -> 1 <= fc_batch c -> fc_log_split c = true \/ 2 <= fc_nb c ->
  (forall z, fc_max_depth c = DFin z -> f_queries f' <= f_queries f + fc_n c * (fc_batch c * most_feats (fc_fsub c) W * (2 ^ Z.to_nat z - 1))) /\
  (forall m, fc_max_leaves c = Some m -> f_queries f' <= f_queries f + fc_n c * (fc_batch c * most_feats (fc_fsub c) W * (2 * m - 1))).
Proof. exact forest_bandit_bound. Qed.
Print Assumptions C177_forest_bound.
(** The exhaustive search reads every row at the root alone. *)
Theorem C177_exact_floor : forall P M c a e t W, trainable c a W -> built P M c a e t ->
  tc_solver c = EXACT -> bins_ok c -> ta_budget a = None -> tc_max_leaves c = None -> may_split c a t 0 ->
  full_price c a (node_rows t 0) (node_feats t 0) <= t_queries t.
Proof. exact exact_tree_floor. Qed.
Print Assumptions C177_exact_floor.
(** Any task and bins, no replacement: no node costs more than its rows. *)
Theorem C177_never_dearer : forall P M c a e t W, trainable c a W -> built P M c a e t ->
  tc_solver c = MAB -> tc_repl c = false -> 1 <= tc_batch c -> bins_ok c ->
  exists ids, NoDup ids /\ (forall id, In id ids -> may_split c a t id) /\
    t_queries t <= list_sum (map (fun id => full_price c a (node_rows t id) (node_feats t id)) ids).
Proof. exact bandit_tree_full. Qed.
Print Assumptions C177_never_dearer.
(** Batches of five, depth two: ten insertions with 20 rows and with 40; exhaustively 39 and 79. *)
Example C177_ex : (forall n, 0 < n -> trainable (band_cfg true MAB 2 5) (band_args n) 1) /\ bins_ok (band_cfg true MAB 2 5) /\ ranges_cover (band_cfg true MAB 2 5) (band_args 40) /\
  map (fun n => cost (band_cfg true MAB 2 5) (band_args n)) [20; 40] = [Some 10; Some 10] /\ map (fun n => cost (band_cfg true EXACT 2 5) (band_args n)) [20; 40] = [Some 39; Some 79].
Proof. split; [intros; now apply band_args_trainable|]. split; [right; cbn; repeat constructor|]. split; [exact Logic.I|]. split; vm_compute; reflexivity. Qed.
Example C177_ex_root : forall t, run_with P0 M0 (band_cfg true EXACT 2 5) (band_args 20) env0 = Ok t -> may_split (band_cfg true EXACT 2 5) (band_args 20) t 0.
Proof. exact twenty_root. Qed.
(** Three trees, two columns, depth two, batches of two: 16 of at most 3 * 2 * 2 * 3 = 36. *)
Example C177_ex_forest : forest_trainable fc_band (fst (start P1 fc_band Y6)) (None, None) (heap_of Y6) X6 2 /\ fcost fc_band = Some (3, 16).
Proof. split; [apply band_forest_trainable|]. vm_compute. reflexivity. Qed.
(** A regression tree may pay more than a batch per node. *)
Theorem C177_regression_refuted : exists P M c a e t W, trainable c a W /\ built P M c a e t /\ tc_solver c = MAB /\ tc_class c = false /\ tc_bin c = LINEAR /\ 1 <= tc_batch c /\ bins_ok c /\ ranges_cover c a /\
  tc_max_depth c = DFin 1 /\ tc_batch c * most_feats (tc_fsub c) (length (train_feats a)) * (2 ^ Z.to_nat 1 - 1) < t_queries t.
Proof. exact regression_many. Qed.
Print Assumptions C177_regression_refuted.

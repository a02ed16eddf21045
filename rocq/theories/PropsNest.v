(** Nested fits: raising max_leaf_nodes or n_estimators and changing nothing else. *)
From Coq Require Import List Arith Bool ZArith QArith Qcanon.
From Verif Require Import Base Num Rng Histogram Utils Criteria Solvers Tree Forest Spec SolverSpec TreeSpec TrainSpec ForestSpec NestSpec NestTree NestForest Samples TreeWitness ForestWitness TrainWitness NestWitness.
Import ListNotations.
Local Open Scope nat_scope.

(** ** C157: a larger max_leaf_nodes only splits leaves further *)
Theorem C157_larger_limit : forall P M c a e m m', train_rows a <> [] -> limit_le m m' -> forall t t',
  built P M (with_leaf_limit c m) a e t -> built P M (with_leaf_limit c m') a e t' ->
  extends t t' /\ finer t t' /\ length (t_leaves t) = capped m (length (t_leaves t')) /\ t_queries t <= t_queries t' /\
  forall x leaf leaf', lands t x 0 leaf -> lands t' x 0 leaf' -> descends t' leaf leaf' /\
    (leaf' = leaf -> answer (tree_predict (with_leaf_limit c m') t' x) = answer (tree_predict (with_leaf_limit c m) t x)).
Proof. exact larger_limit. Qed.
Print Assumptions C157_larger_limit.

(** A fit that works with a limit works with every smaller positive limit. *)
Theorem C157_smaller_limit_fits : forall P M c a e m m', train_rows a <> [] -> limit_le m m' -> forall t', m <> Some 0 ->
  built P M (with_leaf_limit c m') a e t' -> exists t, built P M (with_leaf_limit c m) a e t.
Proof. exact smaller_limit_fits. Qed.
Print Assumptions C157_smaller_limit_fits.
(** Fits with limits 1, 2, 3, 9 and none: an exact regression tree, one that draws a column per node, a bandit tree. *)
Example C157_ex : map (leaves_of (grow_cfg false 1) (grow_args X6 T6)) [Some 1; Some 2; Some 3; Some 9; None] = [Some 1; Some 2; Some 3; Some 5; Some 5] /\
  map (leaves_of cfg_reg (targs_of T6)) [Some 1; Some 3; None] = [Some 1; Some 3; Some 4] /\ map (leaves_of cfg_mab (targs_of Y6)) [Some 1; None] = [Some 1; Some 2].
Proof. repeat split; vm_compute; reflexivity. Qed.

(** ** C158: and never fits the training rows worse *)
Theorem C158_limit_and_training_error : forall P M c a e m m', train_rows a <> [] -> limit_le m m' -> forall t t' ps s ps' s',
  built P M (with_leaf_limit c m) a e t -> built P M (with_leaf_limit c m') a e t' ->
  tree_predict_batch (with_leaf_limit c m) t (train_points a) = Ok (ps, s) -> tree_predict_batch (with_leaf_limit c m') t' (train_points a) = Ok (ps', s') ->
  (tc_class c = false -> (sq_error (train_labels a) (map number_of ps') <= sq_error (train_labels a) (map number_of ps))%Qc) /\
  (tc_class c = true -> good_classes (tc_classes c) -> hits (train_labels a) (map label_of ps) <= hits (train_labels a) (map label_of ps')).
Proof. exact limit_error. Qed.
Print Assumptions C158_limit_and_training_error.
Example C158_ex : falls (error_of (grow_cfg false 1) (grow_args X6 T6) (Some 2)) (error_of (grow_cfg false 1) (grow_args X6 T6) (Some 3)) = true /\
  rises (hits_of (grow_cfg true 1) (grow_args X6 Y6) (Some 1)) (hits_of (grow_cfg true 1) (grow_args X6 Y6) None) = true.
Proof. split; vm_compute; reflexivity. Qed.

(** ** C159: more estimators only append trees *)
Theorem C159_more_trees : forall M P c n m f arg h e f1 h1 e1 f2 h2 e2, n <= m ->
  forest_fit M P (with_estimators c n) f arg h e = Ok (f1, h1, e1) -> forest_fit M P (with_estimators c m) f arg h e = Ok (f2, h2, e2) -> continues n f1 f2.
Proof. exact more_trees. Qed.
Print Assumptions C159_more_trees.
Theorem C159_fewer_trees_fit : forall M P c n m f arg h e f2 h2 e2, n <= m ->
  forest_fit M P (with_estimators c m) f arg h e = Ok (f2, h2, e2) -> exists f1 h1 e1, forest_fit M P (with_estimators c n) f arg h e = Ok (f1, h1, e1).
Proof. exact fewer_trees_fit. Qed.
Print Assumptions C159_fewer_trees_fit.
(** Without a budget, with boosting, and with a budget that runs out after two trees. *)
Example C159_ex : map (fun n => trees_of fc_re n None) [0; 1; 3] = [Some 0; Some 1; Some 3] /\ map (fun n => trees_of fc_bo n None) [1; 3] = [Some 1; Some 3] /\
  map (fun n => trees_of fc_re n (Some 40%Z)) [1; 3; 5] = [Some 1; Some 2; Some 2].
Proof. repeat split; vm_compute; reflexivity. Qed.

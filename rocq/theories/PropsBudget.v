(** What a budget does to an exhaustive tree. *)
From Coq Require Import List Arith Bool ZArith QArith Qcanon.
From Verif Require Import Base Num Rng Histogram Utils Criteria Solvers Tree Forest Spec SolverSpec TreeSpec TrainSpec ForestSpec NestSpec GrowSpec BudgetSpec BudgetThms Samples TreeWitness ForestWitness TrainWitness NestWitness BudgetWitness.
Import ListNotations.
Local Open Scope nat_scope.

(** ** C171: a leaf limit and a budget prune the tree *)
Theorem C171_limits_prune : forall P M c a W m b, searches_all c -> trainable (with_leaf_limit c m) (budgeted a b) W -> trainable (with_leaf_limit c None) (budgeted a None) W -> forall e e' t t',
  built P M (with_leaf_limit c m) (budgeted a b) e t -> built P M (with_leaf_limit c None) (budgeted a None) e' t' ->
  exists sh sh', has_shape t 0 sh /\ has_shape t' 0 sh' /\ pruned sh sh' /\ finer t t' /\ length (t_leaves t) <= length (t_leaves t').
Proof. exact limits_prune. Qed.
Print Assumptions C171_limits_prune.
Theorem C171_limits_error : forall P M c a W m b, searches_all c -> trainable (with_leaf_limit c m) (budgeted a b) W -> trainable (with_leaf_limit c None) (budgeted a None) W -> forall e e' t t' ps s ps' s',
  built P M (with_leaf_limit c m) (budgeted a b) e t -> built P M (with_leaf_limit c None) (budgeted a None) e' t' ->
  tree_predict_batch (with_leaf_limit c m) t (train_points a) = Ok (ps, s) -> tree_predict_batch (with_leaf_limit c None) t' (train_points a) = Ok (ps', s') ->
  (tc_class c = false -> (sq_error (train_labels a) (map number_of ps') <= sq_error (train_labels a) (map number_of ps))%Qc) /\
  (tc_class c = true -> good_classes (tc_classes c) -> hits (train_labels a) (map label_of ps) <= hits (train_labels a) (map label_of ps')).
Proof. exact limits_error. Qed.
Print Assumptions C171_limits_error.
(** Eight rows: a budget of 9, of 13 and no budget; and a budget of 13 with at most two leaves. *)
Example C171_ex : searches_all (grow_cfg false 1) /\ trainable (with_leaf_limit (grow_cfg false 1) (Some 2)) (budgeted line8 (Some 13%Z)) 1 /\
  map tally [Some 9%Z; Some 13%Z; None] = [Some (3, 12); Some (3, 16); Some (8, 24)] /\ leaves_of (grow_cfg false 1) (budgeted line8 (Some 13%Z)) (Some 2) = Some 2.
Proof. split; [repeat split; right; reflexivity|]. split; [apply line8_limits; discriminate|]. split; vm_compute; reflexivity. Qed.

(** ** C172: a larger budget fits no worse *)
Theorem C172_larger_budget : forall P M c a W e b b', tc_solver c = EXACT -> trainable c a W -> bins_ok c -> budget_le b b' -> forall t t',
  built P M c (budgeted a b) e t -> built P M c (budgeted a b') e t' ->
  (leaf_impurity M c a t' <= leaf_impurity M c a t)%Qc /\ length (t_leaves t) <= length (t_leaves t') /\ t_queries t <= t_queries t'.
Proof. exact larger_budget. Qed.
Print Assumptions C172_larger_budget.
Theorem C172_larger_budget_error : forall P M c a W e b b', tc_solver c = EXACT -> trainable c a W -> bins_ok c -> budget_le b b' -> forall t t' ps s ps' s',
  built P M c (budgeted a b) e t -> built P M c (budgeted a b') e t' -> tc_class c = false ->
  tree_predict_batch c t (train_points a) = Ok (ps, s) -> tree_predict_batch c t' (train_points a) = Ok (ps', s') ->
  (sq_error (train_labels a) (map number_of ps') <= sq_error (train_labels a) (map number_of ps))%Qc.
Proof. exact larger_budget_error. Qed.
Print Assumptions C172_larger_budget_error.
Example C172_ex : trainable (grow_cfg false 1) line8 1 /\ map tally [Some 0%Z; Some 1%Z; Some 9%Z; Some 13%Z; Some 17%Z; Some 24%Z; Some 25%Z] = [Some (1, 0); Some (2, 8); Some (3, 12); Some (3, 16); Some (4, 18); Some (5, 24); Some (8, 24)] /\
  falls (err8 (Some 12%Z)) (err8 (Some 13%Z)) = true.
Proof. split; [apply line8_trainable|]. split; vm_compute; reflexivity. Qed.
(** The larger tree need not split the leaves of the smaller, and may label fewer training rows correctly. *)
Theorem C172_nested_refuted : exists P M c a W e b b' t t', searches_all c /\ trainable c a W /\ budget_le b b' /\ built P M c (budgeted a b) e t /\ built P M c (budgeted a b') e t' /\ ~ finer t t'.
Proof. exact not_nested. Qed.
Print Assumptions C172_nested_refuted.
Theorem C172_hits_refuted : exists P M c a W e b b' t t' ps s ps' s', searches_all c /\ trainable c a W /\ good_classes (tc_classes c) /\ tc_class c = true /\ budget_le b b' /\ built P M c (budgeted a b) e t /\ built P M c (budgeted a b') e t' /\
  tree_predict_batch c t (train_points a) = Ok (ps, s) /\ tree_predict_batch c t' (train_points a) = Ok (ps', s') /\ hits (train_labels a) (map label_of ps') < hits (train_labels a) (map label_of ps).
Proof. exact hits_fall. Qed.
Print Assumptions C172_hits_refuted.

(** ** C173: the budget that changes nothing *)
Theorem C173_enough_budget : forall P M c a W e b b', tc_solver c = EXACT -> trainable c a W -> bins_ok c -> budget_le b b' -> forall t t',
  built P M c (budgeted a b) e t -> built P M c (budgeted a b') e t' -> pays_for b (t_queries t') -> same_but_budget t t'.
Proof. exact enough_budget. Qed.
Print Assumptions C173_enough_budget.
(** A budget equal to the queries of the unlimited fit is not enough. *)
Theorem C173_not_enough : exists P M c a W e t t', searches_all c /\ trainable c a W /\ built P M c (budgeted a None) e t' /\ built P M c (budgeted a (Some (Z.of_nat (t_queries t')))) e t /\ length (t_leaves t) < length (t_leaves t').
Proof. exact not_enough. Qed.
Print Assumptions C173_not_enough.
Example C173_ex : pays_for (Some 25%Z) 24 /\ tally None = Some (8, 24) /\ rows8 (Some 25%Z) = rows8 None.
Proof. split; [reflexivity|]. split; vm_compute; reflexivity. Qed.

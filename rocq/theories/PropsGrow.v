(** What an exhaustive fit computes, and what its stopping rules do. *)
From Coq Require Import List Arith Bool ZArith QArith Qcanon Permutation.
From Verif Require Import Base Num Rng Histogram Utils Criteria Solvers Tree Forest Spec SolverSpec TreeSpec TrainSpec ForestSpec NestSpec GrowSpec GrowThms GrowSeed GrowStops GrowForest Samples TreeWitness ForestWitness TrainWitness NestWitness GrowWitness.
Import ListNotations.
Local Open Scope nat_scope.

(** ** C160: the fitted tree is the recursive one *)
Theorem C160_recursive_tree : forall P M c a e t W, exhaustive c a -> trainable c a W -> built P M c a e t ->
  exists sh, has_shape t 0 sh /\ recursive M c a 0 (train_rows a) sh /\ Permutation (map (node_rows t) (t_leaves t)) (leaf_sets sh) /\
    forall sh', recursive M c a 0 (train_rows a) sh' -> sh' = sh.
Proof. exact recursive_tree. Qed.
Print Assumptions C160_recursive_tree.

(** Neither the seed nor the generator nor the discrete-value table matters. *)
Theorem C160_seed_free : forall P P' M c a e e' s dd t t' W, exhaustive c a -> trainable c a W -> trainable c (with_seed a s dd) W ->
  built P M c a e t -> built P' M c (with_seed a s dd) e' t' ->
  exists sh, has_shape t 0 sh /\ has_shape t' 0 sh /\
    forall x leaf, lands t x 0 leaf -> exists leaf', lands t' x 0 leaf' /\ node_rows t' leaf' = node_rows t leaf /\ answer (tree_predict c t' x) = answer (tree_predict c t x).
Proof. exact seed_free. Qed.
Print Assumptions C160_seed_free.
Example C160_ex : exhaustive (grow_cfg false 1) (six false) /\ trainable (grow_cfg false 1) (six false) 2 /\ trainable (grow_cfg false 1) (with_seed (six false) 11 None) 2 /\
  (exists t, built P0 M0 (grow_cfg false 1) (six false) env0 t) /\ (exists t, built P1 M0 (grow_cfg false 1) (with_seed (six false) 11 None) env0 t) /\
  leaves_of (grow_cfg false 1) (six false) None = Some 5.
Proof.
  split; [apply six_exhaustive|]. split; [apply (six_trainable false)|]. split; [apply six_seed|].
  split; [|split; [|vm_compute; reflexivity]]; (eapply exact_identity_fits; [|reflexivity|reflexivity]); [apply (six_trainable false)|apply six_seed].
Qed.

(** ** C161: stricter stopping rules prune *)
Theorem C161_stricter_prunes : forall P M c a W d d' ms ms' mi mi', exhaustive c a -> trainable (with_stops c d ms mi) a W -> trainable (with_stops c d' ms' mi') a W ->
  depth_le d d' -> ms' <= ms -> (mi <= mi')%Qc -> forall e e' t t', built P M (with_stops c d ms mi) a e t -> built P M (with_stops c d' ms' mi') a e' t' ->
  exists sh sh', has_shape t 0 sh /\ has_shape t' 0 sh' /\ pruned sh sh' /\ finer t t' /\ length (t_leaves t) <= length (t_leaves t').
Proof. exact stricter_prunes. Qed.
Print Assumptions C161_stricter_prunes.

Theorem C161_stricter_error : forall P M c a W d d' ms ms' mi mi', exhaustive c a -> trainable (with_stops c d ms mi) a W -> trainable (with_stops c d' ms' mi') a W ->
  depth_le d d' -> ms' <= ms -> (mi <= mi')%Qc -> forall e e' t t' ps s ps' s', built P M (with_stops c d ms mi) a e t -> built P M (with_stops c d' ms' mi') a e' t' ->
  tree_predict_batch (with_stops c d ms mi) t (train_points a) = Ok (ps, s) -> tree_predict_batch (with_stops c d' ms' mi') t' (train_points a) = Ok (ps', s') ->
  (tc_class c = false -> (sq_error (train_labels a) (map number_of ps') <= sq_error (train_labels a) (map number_of ps))%Qc) /\
  (tc_class c = true -> good_classes (tc_classes c) -> hits (train_labels a) (map label_of ps) <= hits (train_labels a) (map label_of ps')).
Proof. exact stricter_error. Qed.
Print Assumptions C161_stricter_error.
Example C161_ex : exhaustive (grow_cfg false 1) (six false) /\ (forall d ms mi, d <> DNone -> trainable (stops false d ms mi) (six false) 2) /\
  map (fun d => leaves_with d 1 0%Qc) [DFin 0; DFin 1; DFin 2; DInf] = [Some 1; Some 2; Some 4; Some 5] /\
  map (fun ms => leaves_with DInf ms 0%Qc) [6; 3; 2; 1] = [Some 1; Some 2; Some 4; Some 5] /\
  map (fun mi => leaves_with DInf 1 mi) [z (-100); z (-2); frac (-1) 10; z 0] = [Some 1; Some 2; Some 3; Some 5] /\
  falls (error_with (DFin 1) 1 0%Qc) (error_with DInf 1 0%Qc) = true.
Proof. split; [apply six_exhaustive|]. split; [intros; now apply six_stops|]. repeat split; vm_compute; reflexivity. Qed.

(** ** C162: every non-negative min_impurity_decrease is the same *)
Theorem C162_tree_min_decrease : forall M P c m1 m2 a e t0 e0, (0 <= m1)%Qc -> (0 <= m2)%Qc -> tree_new P (with_min_decrease c m1) a e = Ok (t0, e0) ->
  tree_new P (with_min_decrease c m2) a e = Ok (t0, e0) /\ tree_fit M (with_min_decrease c m2) t0 (None, None) e0 = tree_fit M (with_min_decrease c m1) t0 (None, None) e0.
Proof. exact same_fit. Qed.
Print Assumptions C162_tree_min_decrease.

Theorem C162_forest_min_decrease : forall M P c m1 m2 f arg h e f1 h1 e1, (0 <= m1)%Qc -> (0 <= m2)%Qc ->
  forest_fit M P (forest_min_decrease c m1) f arg h e = Ok (f1, h1, e1) -> forest_fit M P (forest_min_decrease c m2) f arg h e = Ok (retag m2 f1, h1, e1).
Proof. exact forest_same. Qed.
Print Assumptions C162_forest_min_decrease.

Theorem C162_forest_answers : forall c m m' f x p f', forest_predict (forest_min_decrease c m) f x = Ok (p, f') ->
  forest_predict (forest_min_decrease c m') (retag m' f) x = Ok (p, retag m' f').
Proof. exact predict_retag. Qed.
Print Assumptions C162_forest_answers.
(** 0 and 100 are the same; -100 is not: bagged regression, boosted regression and bagged classification. *)
Example C162_ex : map (fun m => trees_with fc_re m T6) [z (-100); z 0; z 100] = [Some [1; 1; 1]; Some [3; 4; 4]; Some [3; 4; 4]] /\
  map (fun m => trees_with fc_bo m T6) [z (-100); z 0; z 100] = [Some [1; 1; 1]; Some [4; 3; 3]; Some [4; 3; 3]] /\
  map (fun m => trees_with fc_cl m Y6) [z (-100); z 0; z 100] = [Some [1; 1; 1]; Some [2; 2; 2]; Some [2; 2; 2]].
Proof. repeat split; vm_compute; reflexivity. Qed.

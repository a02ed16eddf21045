(** Runs behind the examples of PropsNest.v. *)
From Coq Require Import List Arith Bool ZArith QArith Qcanon Lia.
From Verif Require Import Base Num Rng Histogram Utils Criteria Solvers Tree Forest Spec SolverSpec TreeSpec TrainSpec ForestSpec NestSpec Samples TreeWitness ForestWitness InvarWitness TrainWitness.
Import ListNotations.
Local Open Scope nat_scope.

Definition leaves_of (c : tcfg) (a : targs) (m : option nat) : option nat :=
  match run_with P0 M0 (with_leaf_limit c m) a env0 with Ok t => Some (length (t_leaves t)) | Err _ => None end.
Definition error_of (c : tcfg) (a : targs) (m : option nat) : option Qc :=
  match run_with P0 M0 (with_leaf_limit c m) a env0 with
  | Ok t => match tree_predict_batch (with_leaf_limit c m) t (train_points a) with Ok (ps, _) => Some (sq_error (train_labels a) (map number_of ps)) | Err _ => None end
  | Err _ => None end.
Definition hits_of (c : tcfg) (a : targs) (m : option nat) : option nat :=
  match run_with P0 M0 (with_leaf_limit c m) a env0 with
  | Ok t => match tree_predict_batch (with_leaf_limit c m) t (train_points a) with Ok (ps, _) => Some (hits (train_labels a) (map label_of ps)) | Err _ => None end
  | Err _ => None end.
Definition falls (x y : option Qc) : bool := match x, y with Some p, Some q => qlt q p | _, _ => false end.
Definition rises (x y : option nat) : bool := match x, y with Some p, Some q => p <? q | _, _ => false end.
Definition trees_of (c : fcfg) (n : nat) (b : option Z) : option nat :=
  match frun P1 (with_estimators c n) X6 (heap_of T6) None b with Ok (f, _, _) => Some (length (f_trees f)) | Err _ => None end.

(** Runs behind the examples of PropsGrow.v. *)
From Coq Require Import List Arith Bool ZArith QArith Qcanon Lia.
From Verif Require Import Base Num Rng Histogram Utils Criteria Solvers Tree Forest Spec SolverSpec TreeSpec TrainSpec ForestSpec NestSpec GrowSpec Samples TreeWitness ForestWitness InvarWitness TrainWitness NestWitness.
Import ListNotations.
Local Open Scope nat_scope.

Definition six (cl : bool) : targs := grow_args X6 (if cl then Y6 else T6).
Definition stops (cl : bool) (d : depthlim) (ms : nat) (mi : Qc) : tcfg := with_stops (grow_cfg cl 1) d ms mi.
Definition leaves_with (d : depthlim) (ms : nat) (mi : Qc) : option nat := leaves_of (stops false d ms mi) (six false) None.
Definition error_with (d : depthlim) (ms : nat) (mi : Qc) : option Qc := error_of (stops false d ms mi) (six false) None.
Lemma six_exhaustive cl : exhaustive (grow_cfg cl 1) (six cl).
Proof. repeat split; try reflexivity. right. reflexivity. Qed.
Lemma six_stops cl d ms mi : d <> DNone -> trainable (stops cl d ms mi) (six cl) 2.
Proof. intros D. destruct (six_trainable cl 1). constructor; try assumption. Qed.
Lemma six_seed cl s : trainable (grow_cfg cl 1) (with_seed (six cl) s None) 2.
Proof. destruct (six_trainable cl 1). constructor; try assumption. Qed.
(** The trees of two forests, without their settings. *)
Definition trees_with (c : fcfg) (m : Qc) (Y : list Qc) : option (list nat) :=
  match frun P1 (forest_min_decrease c m) X6 (heap_of Y) None None with
  | Ok (f, _, _) => Some (map (fun p => length (t_leaves (snd p))) (f_trees f))
  | Err _ => None end.

(** Specification of the problem that one tree of a forest solves. *)
From Coq Require Import List Arith Bool ZArith QArith Qcanon.
From Verif Require Import Base Num Rng Tree Forest Spec TreeSpec ForestSpec.
Import ListNotations.
Local Open Scope nat_scope.

(** Arguments of a tree of the forest: the forest's table, a sample of its rows and columns,
    its labels unless boosting replaces them, and no budget if the forest has none. *)
Definition tree_problem (c : fcfg) (f : forest) (arg : option (list (list Qc)) * option nat) (h : heap) (data : list (list Qc)) (W : nat) (a : targs) : Prop :=
  ta_data a = data /\ sampled c (length data) W (train_rows a) (train_feats a) /\ (f_budget f = None -> ta_budget a = None) /\
  (fc_boosting c = false -> fit_labels c f arg h = Some (ta_labels a)).

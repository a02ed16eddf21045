(** Specification of what a bandit search costs, in terms of the rows and features of a node. *)
From Coq Require Import List Arith Bool ZArith QArith Qcanon Lia.
From Verif Require Import Base Num Rng Histogram Utils Criteria Solvers Tree Forest Spec SolverSpec TreeSpec ForestSpec.
Import ListNotations.
Local Open Scope nat_scope.

(** Ranges fixed in advance, if any, do not end below a value of the training rows. *)
Definition ranges_cover (c : tcfg) (a : targs) : Prop :=
  match tc_minmax c with
  | None => True
  | Some (_, mx) => forall i s hi, In i (train_rows a) -> In s (train_feats a) -> nth_error mx s = Some hi -> (cell (ta_data a) i s <= hi)%Qc
  end.

(** Thresholds per feature at a node with rows I. *)
Definition bins_at (c : tcfg) (I : list nat) : nat := if tc_log_split c then Nat.log2 (length I) + 1 else tc_nb c.

(** The price of one batch at a node with rows I and features fs: a batch of rows for each
    feature that has thresholds; nothing with five candidates or fewer. *)
Definition batch_price (c : tcfg) (a : targs) (I fs : list nat) : nat :=
  let k := length (filter (scanned c a I) fs) in
  if 5 <? bins_at c I * k then Nat.min (tc_batch c) (length I) * k else 0.

(** The price of reading every row of the node. *)
Definition full_price (c : tcfg) (a : targs) (I fs : list nat) : nat := length I * length (filter (scanned c a I) fs).

(** A node that may be split. *)
Definition may_split (c : tcfg) (a : targs) (t : tree) (id : nat) : Prop :=
  exists nd, node_at t id nd /\ below_depth c (nd_depth nd) /\ tc_min_split c < length (node_rows t id) /\ varied (labels_at (ta_labels a) (node_rows t id)).

(** How many nodes of a tree can have something below them: those above the depth limit. *)
Definition most_inner (d : depthlim) (n : nat) : nat := match d with DFin z => 2 ^ Z.to_nat z - 1 | _ => n end.

(** The most features a node considers when its tree has F of them. *)
Definition most_feats (fs : fsub) (F : nat) : nat := match fs with FSSqrt => Nat.sqrt_up F | FSInt k => Nat.min F (Z.to_nat k) | _ => F end.

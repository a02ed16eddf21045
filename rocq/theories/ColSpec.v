(** Vocabulary for adding columns to the training table and for keeping only some of them. *)
From Coq Require Import List Arith Bool ZArith QArith Qcanon Lia Sorted.
From Verif Require Import Base Num Rng Histogram Utils Criteria Solvers Tree Spec SolverSpec TreeSpec.
Import ListNotations.
Local Open Scope nat_scope.

(** Two nodes with the same place in the tree, the same rows, counts and reduction, and the same
    split up to the numbering of the columns. *)
Record col_node (phi : nat -> nat) (nd nd' : node) : Prop := {
  cn_left : nd_left nd' = nd_left nd; cn_right : nd_right nd' = nd_right nd; cn_parent : nd_parent nd' = nd_parent nd;
  cn_depth : nd_depth nd' = nd_depth nd; cn_n : nd_n nd' = nd_n nd; cn_prop : nd_prop nd' = nd_prop nd;
  cn_idcs : nd_idcs nd' = nd_idcs nd; cn_counts : nd_counts nd' = nd_counts nd;
  cn_sf : nd_sf nd' = option_map phi (nd_sf nd); cn_sv : nd_sv nd' = nd_sv nd; cn_red : nd_red nd' = nd_red nd
}.
(** Two trees of the same shape with the same splits; the number of queries may differ. *)
Record col_tree (phi : nat -> nat) (t t' : tree) : Prop := {
  ct_nodes : Forall2 (col_node phi) (t_nodes t) (t_nodes t');
  ct_leaves : t_leaves t' = t_leaves t; ct_splits : t_splits t' = t_splits t; ct_depth : t_depth t' = t_depth t
}.

(** The settings under which the search looks at every column and reads nothing but the table:
    exhaustive search over all values or equally spaced thresholds, no feature subsampling, no
    precomputed ranges. *)
Definition all_columns (c : tcfg) : Prop :=
  tc_solver c = EXACT /\ (tc_bin c = LINEAR \/ tc_bin c = IDENTITY) /\ bins_ok c /\ tc_fsub c = FSNone /\ tc_minmax c = None.

(** The training problem with the column x added after the W columns of the table. *)
Definition add_column (W : nat) (x : list Qc) (a : targs) : targs :=
  {| ta_data := map (fun p => fst p ++ [snd p]) (combine (ta_data a) x); ta_labels := ta_labels a; ta_budget := ta_budget a;
     ta_dd := ta_dd a; ta_seed := ta_seed a; ta_idcs := ta_idcs a; ta_feats := option_map (fun l => l ++ [W]) (ta_feats a) |}.
(** The training problem with only the columns in keep. *)
Definition select_row (keep : list nat) (r : list Qc) : list Qc := map (fun k => nth k r 0%Qc) keep.
Definition select_columns (keep : list nat) (a : targs) : targs :=
  {| ta_data := map (select_row keep) (ta_data a); ta_labels := ta_labels a; ta_budget := ta_budget a;
     ta_dd := ta_dd a; ta_seed := ta_seed a; ta_idcs := ta_idcs a; ta_feats := option_map (fun _ => seq 0 (length keep)) (ta_feats a) |}.
(** The new number of column k. *)
Fixpoint place (keep : list nat) (k : nat) : nat := match keep with [] => 0 | j :: l => if k =? j then 0 else S (place l k) end.
(** The tree looks at no other columns: every split found at a node, made or not, is on one of
    them. *)
Definition uses_only (keep : list nat) (t : tree) : Prop := forall nd k, In nd (t_nodes t) -> nd_sf nd = Some k -> In k keep.

(** Rows with different labels differ in one of the columns. *)
Definition told_apart (keep : list nat) (a : targs) : Prop :=
  forall i j, In i (train_rows a) -> In j (train_rows a) -> nth i (ta_labels a) 0%Qc <> nth j (ta_labels a) 0%Qc -> exists k, In k keep /\ cell (ta_data a) i k <> cell (ta_data a) j k.

(** The impurity measure of a tree. *)
Definition tree_impurity (M : math) (c : tcfg) : list Qc -> Qc :=
  if tc_class c then match tc_crit c with ENTROPY => entropy (m_log M) | _ => gini end else match tc_crit c with GINI => lump | _ => variance end.
(** The column x is idle: on no set of training rows does any of its thresholds reduce the impurity
    by more than every threshold of the other columns. *)
Definition idle (M : math) (c : tcfg) (a : targs) (W : nat) (x : list Qc) : Prop :=
  forall I nb E v, I <> [] -> incl I (train_rows a) ->
    let a' := add_column W x a in let X := map (fun i => nth i (ta_data a') []) I in
    candidates (tc_bin c) nb None X W E -> In v E ->
    exists f, In f (train_feats a) /\ forall E', candidates (tc_bin c) nb None X f E' -> exists v', In v' E' /\
      (reduction (tree_impurity M c) (picked (ta_data a') (ta_labels a') I) f v' <= reduction (tree_impurity M c) (picked (ta_data a') (ta_labels a') I) W v)%Qc.

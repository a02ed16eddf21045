(** Specification of the tree as a recursion over sets of rows, with no leaf list and no order of
    expansion, and of what the stopping settings do to it. *)
From Coq Require Import List Arith Bool ZArith QArith Qcanon Lia.
From Verif Require Import Base Num Rng Histogram Utils Criteria Solvers Tree Forest Spec SolverSpec TreeSpec.
Import ListNotations.
Local Open Scope nat_scope.

(** A binary tree of row sets. *)
Inductive shape :=
| Leaf (I : list nat)
| Fork (I : list nat) (s : nat) (v : Qc) (l r : shape).
Definition rows_in (sh : shape) : list nat := match sh with Leaf rows => rows | Fork rows _ _ _ _ => rows end.
Fixpoint leaf_sets (sh : shape) : list (list nat) := match sh with Leaf rows => [rows] | Fork _ _ _ l r => leaf_sets l ++ leaf_sets r end.
(** The part of a fitted tree below the node id. *)
Inductive has_shape (t : tree) : nat -> shape -> Prop :=
| hs_leaf id nd : node_at t id nd -> nd_left nd = None -> nd_right nd = None -> has_shape t id (Leaf (nd_idcs nd))
| hs_fork id nd l r s v sl sr : node_at t id nd -> nd_left nd = Some l -> nd_right nd = Some r -> nd_sf nd = Some s -> nd_sv nd = Some v ->
    has_shape t l sl -> has_shape t r sr -> has_shape t id (Fork (nd_idcs nd) s v sl sr).

Section Rec.
Context (M : math) (c : tcfg) (a : targs).
Notation gain := (split_change M c a).
(** A cut of the rows I that lowers the impurity, by at least as much as every other threshold of every
    training column, and is the first such cut in the order of columns and of thresholds. *)
Definition best_cut (I : list nat) (s : nat) (v : Qc) : Prop :=
  exists E f b, (forall f' s', nth_error (train_feats a) f' = Some s' -> thresholds c a I s' (E f')) /\
    nth_error (train_feats a) f = Some s /\ nth_error (E f) b = Some v /\ (gain I s v < 0)%Qc /\
    forall f' s' b' v', nth_error (train_feats a) f' = Some s' -> nth_error (E f') b' = Some v' ->
      (gain I s v <= gain I s' v')%Qc /\ (gain I s' v' = gain I s v -> earlier_or_same f b f' b').
(** The share of the rows I among n rows. *)
Definition share (I : list nat) (n : nat) : Qc := (Nq (length I) / Nq n)%Qc.
(** The gain, weighted by the share of the rows, is below min_impurity_decrease; and so it is when it is weighted
    a second time, by the share among all labels. *)
Definition worth (I : list nat) (s : nat) (v : Qc) : Prop :=
  let x := (gain I s v * share I (length (train_rows a)))%Qc in
  (x < tc_min_imp c)%Qc /\ (x * share I (length (ta_labels a)) < tc_min_imp c)%Qc.
Definition may_split (d : nat) (I : list nat) : Prop :=
  below_depth c d /\ tc_min_split c < length I /\ varied (labels_at (ta_labels a) I).
Definition goes_left (s : nat) (v : Qc) (I : list nat) : list nat := filter (fun i => qle (cell (ta_data a) i s) v) I.
Definition goes_right (s : nat) (v : Qc) (I : list nat) : list nat := filter (fun i => qlt v (cell (ta_data a) i s)) I.
(** The tree for the rows I at depth d. *)
Inductive recursive : nat -> list nat -> shape -> Prop :=
| rec_fork d I s v l r : may_split d I -> best_cut I s v -> worth I s v ->
    recursive (S d) (goes_left s v I) l -> recursive (S d) (goes_right s v I) r -> recursive d I (Fork I s v l r)
| rec_leaf d I : ~ (may_split d I /\ exists s v, best_cut I s v /\ worth I s v) -> recursive d I (Leaf I).
End Rec.

(** The search looks at every column and every threshold, and nothing but the stopping rules ends it. *)
Definition exhaustive (c : tcfg) (a : targs) : Prop :=
  tc_solver c = EXACT /\ (tc_bin c = LINEAR \/ tc_bin c = IDENTITY) /\ bins_ok c /\ tc_fsub c = FSNone /\ tc_max_leaves c = None /\ ta_budget a = None.

(** The first shape is the second with some forks replaced by leaves. *)
Inductive pruned : shape -> shape -> Prop :=
| pr_leaf sh' : pruned (Leaf (rows_in sh')) sh'
| pr_fork I s v l r l' r' : pruned l l' -> pruned r r' -> pruned (Fork I s v l r) (Fork I s v l' r').

(** The same settings with other stopping rules. *)
Definition with_stops (c : tcfg) (d : depthlim) (ms : nat) (mi : Qc) : tcfg :=
  {| tc_class := tc_class c; tc_max_depth := d; tc_classes := tc_classes c; tc_fsub := tc_fsub c;
     tc_min_split := ms; tc_min_imp := mi; tc_max_leaves := tc_max_leaves c; tc_bin := tc_bin c;
     tc_nb := tc_nb c; tc_crit := tc_crit c; tc_splitter := tc_splitter c; tc_solver := tc_solver c;
     tc_repl := tc_repl c; tc_make_discrete := tc_make_discrete c; tc_minmax := tc_minmax c;
     tc_log_split := tc_log_split c; tc_dyn_eps := tc_dyn_eps c; tc_eps := tc_eps c; tc_batch := tc_batch c |}.
(** The first depth limit is at most the second. *)
Definition depth_le (d d' : depthlim) : Prop :=
  match d, d' with
  | _, DInf => True
  | DFin k, DFin k' => (k <= k')%Z
  | _, _ => False
  end.
(** The same settings with another min_impurity_decrease, for a tree and for a forest. *)
Definition with_min_decrease (c : tcfg) (m : Qc) : tcfg := with_stops c (tc_max_depth c) (tc_min_split c) m.
Definition forest_min_decrease (c : fcfg) (m : Qc) : fcfg :=
  {| fc_class := fc_class c; fc_n := fc_n c; fc_max_depth := fc_max_depth c; fc_bootstrap := fc_bootstrap c; fc_fsub := fc_fsub c;
     fc_min_split := fc_min_split c; fc_min_imp := m; fc_max_leaves := fc_max_leaves c; fc_bin := fc_bin c; fc_nb := fc_nb c;
     fc_crit := fc_crit c; fc_splitter := fc_splitter c; fc_solver := fc_solver c; fc_seed := fc_seed c; fc_repl := fc_repl c;
     fc_boosting := fc_boosting c; fc_lr := fc_lr c; fc_make_discrete := fc_make_discrete c; fc_precomp_minmax := fc_precomp_minmax c;
     fc_log_split := fc_log_split c; fc_dyn_eps := fc_dyn_eps c; fc_eps := fc_eps c; fc_oob := fc_oob c; fc_batch := fc_batch c;
     fc_alpha_N := fc_alpha_N c; fc_alpha_F := fc_alpha_F c |}.
(** The same forest whose trees remember another min_impurity_decrease. *)
Definition retag (m : Qc) (f : forest) : forest := set_trees f (map (fun p => (with_min_decrease (fst p) m, snd p)) (f_trees f)).
(** The same training problem with another seed and discrete-value table. *)
Definition with_seed (a : targs) (s : nat) (dd : option ddict) : targs :=
  {| ta_data := ta_data a; ta_labels := ta_labels a; ta_budget := ta_budget a; ta_dd := dd; ta_seed := s; ta_idcs := ta_idcs a; ta_feats := ta_feats a |}.

(** Specification vocabulary for nested fits: what changes when only max_leaf_nodes is raised. *)
From Coq Require Import List Arith Bool ZArith QArith Qcanon Lia.
From Verif Require Import Base Num Rng Histogram Utils Criteria Solvers Tree Forest Spec SolverSpec TreeSpec.
Import ListNotations.
Local Open Scope nat_scope.

(** The same settings with another max_leaf_nodes. *)
Definition with_leaf_limit (c : tcfg) (m : option nat) : tcfg :=
  {| tc_class := tc_class c; tc_max_depth := tc_max_depth c; tc_classes := tc_classes c; tc_fsub := tc_fsub c;
     tc_min_split := tc_min_split c; tc_min_imp := tc_min_imp c; tc_max_leaves := m; tc_bin := tc_bin c;
     tc_nb := tc_nb c; tc_crit := tc_crit c; tc_splitter := tc_splitter c; tc_solver := tc_solver c;
     tc_repl := tc_repl c; tc_make_discrete := tc_make_discrete c; tc_minmax := tc_minmax c;
     tc_log_split := tc_log_split c; tc_dyn_eps := tc_dyn_eps c; tc_eps := tc_eps c; tc_batch := tc_batch c |}.
(** The first limit is at most the second; None is no limit. *)
Definition limit_le (m m' : option nat) : Prop :=
  match m, m' with
  | _, None => True
  | None, Some _ => False
  | Some k, Some k' => k <= k'
  end.
(** The number of leaves when a tree that could have n leaves stops at the limit m. *)
Definition capped (m : option nat) (n : nat) : nat := match m with None => n | Some k => if k <? n then k else n end.

(** What is fixed when a node is created. *)
Definition same_node (nd nd' : node) : Prop :=
  nd_idcs nd' = nd_idcs nd /\ nd_feats nd' = nd_feats nd /\ nd_parent nd' = nd_parent nd /\ nd_depth nd' = nd_depth nd /\
  nd_n nd' = nd_n nd /\ nd_prop nd' = nd_prop nd /\ nd_counts nd' = nd_counts nd.
(** t' is t with some leaves split further: every node of t is in t' under the same number with the same rows,
    columns, parent and depth; the nodes t has split are split the same way. *)
Definition extends (t t' : tree) : Prop :=
  forall id nd, node_at t id nd -> exists nd', node_at t' id nd' /\ same_node nd nd' /\
    (nd_left nd <> None -> nd_left nd' = nd_left nd /\ nd_right nd' = nd_right nd /\ nd_sf nd' = nd_sf nd /\ nd_sv nd' = nd_sv nd /\ nd_red nd' = nd_red nd).
(** [id] is [top] or lies below it. *)
Inductive descends (t : tree) (top : nat) : nat -> Prop :=
| desc_here nd : node_at t top nd -> descends t top top
| desc_child p pn id : descends t top p -> node_at t p pn -> (nd_left pn = Some id \/ nd_right pn = Some id) -> descends t top id.

(** The leaves of t' are cut out of the leaves of t. *)
Definition finer (t t' : tree) : Prop :=
  forall leaf', In leaf' (t_leaves t') -> exists leaf, In leaf (t_leaves t) /\ incl (node_rows t' leaf') (node_rows t leaf).

(** The same forest settings with another number of estimators. *)
Definition with_estimators (c : fcfg) (n : nat) : fcfg :=
  {| fc_class := fc_class c; fc_n := n; fc_max_depth := fc_max_depth c; fc_bootstrap := fc_bootstrap c; fc_fsub := fc_fsub c;
     fc_min_split := fc_min_split c; fc_min_imp := fc_min_imp c; fc_max_leaves := fc_max_leaves c; fc_bin := fc_bin c; fc_nb := fc_nb c;
     fc_crit := fc_crit c; fc_splitter := fc_splitter c; fc_solver := fc_solver c; fc_seed := fc_seed c; fc_repl := fc_repl c;
     fc_boosting := fc_boosting c; fc_lr := fc_lr c; fc_make_discrete := fc_make_discrete c; fc_precomp_minmax := fc_precomp_minmax c;
     fc_log_split := fc_log_split c; fc_dyn_eps := fc_dyn_eps c; fc_eps := fc_eps c; fc_oob := fc_oob c; fc_batch := fc_batch c;
     fc_alpha_N := fc_alpha_N c; fc_alpha_F := fc_alpha_F c |}.
(** What a forest with more estimators has in common with one that has fewer: its trees, out-of-bag lists and
    queries are those of the smaller one and then some more. *)
Record continues (n : nat) (f f' : forest) : Prop := {
  co_trees : exists ts, f_trees f' = f_trees f ++ ts;
  co_count : length (f_trees f) = capped (Some n) (length (f_trees f'));
  co_oob : exists os, f_oob f' = f_oob f ++ os;
  co_queries : f_queries f <= f_queries f';
  co_rest : f_data f' = f_data f /\ f_org f' = f_org f /\ f_new f' = f_new f /\ f_classes f' = f_classes f /\ f_ncl f' = f_ncl f /\
            f_dd f' = f_dd f /\ f_minmax f' = f_minmax f
}.

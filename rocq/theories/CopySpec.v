(** Vocabulary for fitting on a table whose rows are all repeated: make_huge,
    experiments/exp_utils.py:50-60. *)
From Coq Require Import List Arith Bool ZArith QArith Qcanon Lia Permutation.
From Verif Require Import Base Num Rng Histogram Utils Criteria Solvers Tree Spec SolverSpec TreeSpec InvarSpec.
Import ListNotations.
Local Open Scope nat_scope.

(** k copies of a list, one after the other. *)
Fixpoint copies {A} (k : nat) (l : list A) : list A := match k with 0 => [] | S n => l ++ copies n l end.

(** The training problem a' has every training row of a exactly k times, in any order; the number
    of labels and the budget are k times as large. *)
Record repeated (k : nat) (a a' : targs) : Prop := {
  re_rows : Permutation (copies k (map (fun i => (nth i (ta_data a) [], nth i (ta_labels a) 0%Qc)) (train_rows a)))
                        (map (fun i => (nth i (ta_data a') [], nth i (ta_labels a') 0%Qc)) (train_rows a'));
  re_n : length (ta_labels a') = k * length (ta_labels a);
  re_len : length (ta_data a') = length (ta_labels a');
  re_in : forall i, In i (train_rows a') -> i < length (ta_labels a');
  re_feats : train_feats a' = train_feats a;
  re_budget : ta_budget a' = option_map (fun b => (Z.of_nat k * b)%Z) (ta_budget a);
  re_dd : ta_dd a' = ta_dd a;
  re_seed : ta_seed a' = ta_seed a
}.
(** The table and the labels repeated as a whole. *)
Definition repeat_args (k : nat) (a : targs) : targs :=
  {| ta_data := copies k (ta_data a); ta_labels := copies k (ta_labels a);
     ta_budget := option_map (fun b => (Z.of_nat k * b)%Z) (ta_budget a);
     ta_dd := ta_dd a; ta_seed := ta_seed a; ta_idcs := None; ta_feats := ta_feats a |}.

(** The same settings with min_samples_split k times as large. *)
Definition repeat_cfg (k : nat) (c : tcfg) : tcfg :=
  {| tc_class := tc_class c; tc_max_depth := tc_max_depth c; tc_classes := tc_classes c;
     tc_fsub := tc_fsub c; tc_min_split := k * tc_min_split c; tc_min_imp := tc_min_imp c;
     tc_max_leaves := tc_max_leaves c; tc_bin := tc_bin c; tc_nb := tc_nb c; tc_crit := tc_crit c;
     tc_splitter := tc_splitter c; tc_solver := tc_solver c; tc_repl := tc_repl c;
     tc_make_discrete := tc_make_discrete c; tc_minmax := tc_minmax c;
     tc_log_split := tc_log_split c; tc_dyn_eps := tc_dyn_eps c; tc_eps := tc_eps c; tc_batch := tc_batch c |}.

(** The same node, reached by k times as many rows. *)
Record node_times (k : nat) (nd nd' : node) : Prop := {
  nt_left : nd_left nd' = nd_left nd; nt_right : nd_right nd' = nd_right nd; nt_parent : nd_parent nd' = nd_parent nd;
  nt_depth : nd_depth nd' = nd_depth nd; nt_n : nd_n nd' = k * nd_n nd; nt_prop : nd_prop nd' = nd_prop nd;
  nt_feats : nd_feats nd' = nd_feats nd; nt_counts : nd_counts nd' = map (Nat.mul k) (nd_counts nd);
  nt_queries : nd_queries nd' = k * nd_queries nd;
  nt_sf : nd_sf nd' = nd_sf nd; nt_sv : nd_sv nd' = nd_sv nd; nt_red : nd_red nd' = nd_red nd
}.
(** The same tree, grown with k times as many queries. *)
Record tree_times (k : nat) (t t' : tree) : Prop := {
  tt_nodes : Forall2 (node_times k) (t_nodes t) (t_nodes t');
  tt_leaves : t_leaves t' = t_leaves t; tt_queries : t_queries t' = k * t_queries t;
  tt_splits : t_splits t' = t_splits t; tt_depth : t_depth t' = t_depth t
}.

(** make_huge, experiments/exp_utils.py:50-60: the table and the labels, concatenated with
    themselves [doublings] times. *)
Fixpoint make_huge {A B} (doublings : nat) (x : list A) (y : list B) : list A * list B :=
  match doublings with 0 => (x, y) | S d => make_huge d (x ++ x) (y ++ y) end.

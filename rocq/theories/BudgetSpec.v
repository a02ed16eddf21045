(** Specification vocabulary for what a budget does to an exhaustive tree. *)
From Coq Require Import List Arith Bool ZArith QArith Qcanon.
From Verif Require Import Base Num Rng Histogram Utils Criteria Solvers Tree Spec SolverSpec TreeSpec TrainSpec NestSpec GrowSpec.
Import ListNotations.
Local Open Scope nat_scope.

(** The same training problem with another budget. *)
Definition budgeted (a : targs) (b : option Z) : targs :=
  {| ta_data := ta_data a; ta_labels := ta_labels a; ta_budget := b; ta_dd := ta_dd a; ta_seed := ta_seed a; ta_idcs := ta_idcs a; ta_feats := ta_feats a |}.
(** The first budget is at most the second; None is no limit. *)
Definition budget_le (b b' : option Z) : Prop := match b, b' with _, None => True | None, Some _ => False | Some x, Some y => (x <= y)%Z end.
(** The budget is more than n queries. *)
Definition pays_for (b : option Z) (n : nat) : Prop := match b with None => True | Some x => (Z.of_nat n < x)%Z end.
(** The search looks at every column and every threshold; the leaf limit and the budget are arbitrary. *)
Definition searches_all (c : tcfg) : Prop := tc_solver c = EXACT /\ (tc_bin c = LINEAR \/ tc_bin c = IDENTITY) /\ bins_ok c /\ tc_fsub c = FSNone.
(** The same nodes, leaves, counters and depth: equal but for what is left of the budget. *)
Definition same_but_budget (t t' : tree) : Prop :=
  t_nodes t' = t_nodes t /\ t_leaves t' = t_leaves t /\ t_queries t' = t_queries t /\ t_splits t' = t_splits t /\ t_depth t' = t_depth t.

(** Specification vocabulary for what a budget does to a forest of exhaustive trees. *)
From Coq Require Import List Arith Bool ZArith QArith Qcanon.
From Verif Require Import Base Num Rng Histogram Utils Criteria Solvers Tree Forest Spec SolverSpec TreeSpec TrainSpec ForestSpec NestSpec GrowSpec BudgetSpec.
Import ListNotations.
Local Open Scope nat_scope.

(** The same forest object with another remaining budget. *)
Definition limited (f : forest) (b : option Z) : forest := upd_forest f (f_trees f) b (f_queries f) (f_oob f) (f_gen f).
(** The same settings and the same tree, but for what the tree has left of its budget. *)
Definition same_member (p p' : tcfg * tree) : Prop := fst p' = fst p /\ same_but_budget (snd p) (snd p').
(** Why a larger budget loses the tree p: grown under what is left of the larger budget, it overran that by a million. *)
Definition lost (P : prng) (M : math) (p : tcfg * tree) (f' : forest) : Prop :=
  exists a e b r t t', f_budget f' = Some r /\ budget_le b (Some r) /\ built P M (fst p) (budgeted a b) e t /\ t_queries (snd p) = t_queries t /\
    built P M (fst p) (budgeted a (Some r)) e t' /\ t_queries t <= t_queries t' /\ (r + 1000000 <= Z.of_nat (t_queries t'))%Z.

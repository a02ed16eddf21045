(** What a budget does to a forest of exhaustive trees. *)
From Coq Require Import List Arith Bool ZArith QArith Qcanon.
From Verif Require Import Base Num Rng Histogram Utils Criteria Solvers Tree Forest Spec SolverSpec TreeSpec TrainSpec ForestSpec NestSpec GrowSpec BudgetSpec FBudgetSpec FBudgetThms Samples TreeWitness ForestWitness BudgetWitness FBudgetWitness.
Import ListNotations.
Local Open Scope nat_scope.

(** ** C174: a larger budget keeps every tree but the last *)
Theorem C174_larger_budget : forall M P c f0 arg h e b b', fc_solver c = EXACT -> (forall data, fit_data f0 arg = Some data -> some_rows c (length data)) -> budget_le b b' -> forall f h1 e1 f' h2 e2,
  forest_fit M P c (limited f0 b) arg h e = Ok (f, h1, e1) -> forest_fit M P c (limited f0 b') arg h e = Ok (f', h2, e2) ->
  (forall i p, S i < length (f_trees f) -> nth_error (f_trees f) i = Some p -> exists p', nth_error (f_trees f') i = Some p' /\ same_member p p') /\
  (forall i p p', S i = length (f_trees f) -> nth_error (f_trees f) i = Some p -> nth_error (f_trees f') i = Some p' -> fst p' = fst p /\ t_queries (snd p) <= t_queries (snd p')) /\
  (length (f_trees f) <= length (f_trees f') \/ (length (f_trees f) = S (length (f_trees f')) /\ exists p, nth_error (f_trees f) (length (f_trees f')) = Some p /\ lost P M p f')) /\
  (b' = None \/ length (f_trees f) <= length (f_trees f') -> length (f_trees f) <= length (f_trees f') /\ f_queries f <= f_queries f').
Proof. exact larger_forest_budget. Qed.
Print Assumptions C174_larger_budget.
(** The budget given to the constructor is the one the fit starts with. *)
Theorem C174_constructor : forall P c X r cl b h e, forest_new P c X r cl b h e = match forest_new P c X r cl None h e with Ok (f, e') => Ok (limited f b, e') | Err k => Err k end.
Proof. exact new_limited. Qed.
Print Assumptions C174_constructor.
(** Leaves and queries of three bootstrapped trees and of three boosted trees, by budget. *)
Example C174_ex : fc_solver fc_re = EXACT /\ some_rows fc_re (length (line 8)) /\
  map (members fc_re) [Some 0%Z; Some 9%Z; Some 20%Z; Some 35%Z; Some 40%Z; None] =
    [Some []; Some [(3, 13)]; Some [(5, 19); (2, 8)]; Some [(5, 19); (3, 16)]; Some [(5, 19); (5, 19); (2, 8)]; Some [(5, 19); (5, 19); (5, 19)]] /\
  map (members fc_bo) [Some 20%Z; Some 40%Z; None] = [Some [(4, 16); (2, 8)]; Some [(4, 16); (4, 21); (2, 8)]; Some [(4, 16); (4, 21); (4, 21)]].
Proof. split; [reflexivity|]. split; [apply line8_rows; reflexivity|]. split; vm_compute; reflexivity. Qed.

(** ** C175: the budget that changes nothing, and the forest no budget can grow *)
Theorem C175_enough_budget : forall M P c f0 arg h e b b', fc_solver c = EXACT -> (forall data, fit_data f0 arg = Some data -> some_rows c (length data)) -> budget_le b b' -> forall f h1 e1 f' h2 e2,
  b' = None -> forest_fit M P c (limited f0 b) arg h e = Ok (f, h1, e1) -> forest_fit M P c (limited f0 b') arg h e = Ok (f', h2, e2) ->
  Forall (fun p => 0 < t_queries (snd p)) (f_trees f') -> pays_for b (f_queries f' - f_queries f0) ->
  Forall2 same_member (f_trees f) (f_trees f') /\ f_queries f = f_queries f' /\ f_oob f = f_oob f' /\ f_gen f = f_gen f' /\ h1 = h2 /\ e1 = e2.
Proof. exact enough_forest_budget. Qed.
Print Assumptions C175_enough_budget.
Example C175_ex : pays_for (Some 58%Z) 57 /\ members fc_re None = Some [(5, 19); (5, 19); (5, 19)] /\ members fc_re (Some 58%Z) = members fc_re None.
Proof. split; [reflexivity|]. split; vm_compute; reflexivity. Qed.
(** A tree that costs nothing ends every fit that has a budget. *)
Theorem C175_free_tree : forall M P c f0 arg h e b f h1 e1 f' h2 e2 i p', fc_solver c = EXACT -> (forall data, fit_data f0 arg = Some data -> some_rows c (length data)) ->
  forest_fit M P c (limited f0 (Some b)) arg h e = Ok (f, h1, e1) -> forest_fit M P c (limited f0 None) arg h e = Ok (f', h2, e2) ->
  nth_error (f_trees f') i = Some p' -> t_queries (snd p') = 0 -> length (f_trees f) <= i.
Proof. exact free_tree. Qed.
Print Assumptions C175_free_tree.
(** No budget is enough here: three trees without a budget, none with any. *)
Theorem C175_no_budget_enough : exists M P c X h f0 e0, fc_solver c = EXACT /\ some_rows c (length X) /\ forest_new P c (Some X) (Some 0) None None h env0 = Ok (f0, e0) /\
  (exists f h1 e1, forest_fit M P c (limited f0 None) (None, None) h e0 = Ok (f, h1, e1) /\ length (f_trees f) = 3) /\
  (exists f h1 e1, forest_fit M P c (limited f0 (Some 1000000000%Z)) (None, None) h e0 = Ok (f, h1, e1)) /\
  (forall b f h1 e1, forest_fit M P c (limited f0 (Some b)) (None, None) h e0 = Ok (f, h1, e1) -> f_trees f = []).
Proof. exact no_budget_enough. Qed.
Print Assumptions C175_no_budget_enough.

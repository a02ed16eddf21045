(** Fitting a fitted tree again. *)
From Coq Require Import List Arith Bool ZArith QArith Qcanon Lia.
From Verif Require Import Base Num Rng Histogram Utils Criteria Solvers Tree Forest Samples Spec SolverSpec TreeSpec ForestSpec NestSpec TwiceThms TwiceWitness TreeWitness TrainWitness OrderWitness.
Import ListNotations.
Local Open Scope nat_scope.

(** ** C166: a tree is fitted once *)
Theorem C166_never_retrains : forall P M c a e t t1 e1, built P M c a e t -> train_rows a <> [] -> ta_budget a = None -> warmed c t t1 ->
  forall arg t2 e2, tree_fit M c t1 arg e1 = Ok (t2, e2) -> e2 = e1 /\ forall x, answer (tree_predict c t2 x) = answer (tree_predict c t x).
Proof. exact fit_again_changes_nothing. Qed.
Print Assumptions C166_never_retrains.

Theorem C166_fit_again : forall P M c a e t t1 e1, built P M c a e t -> train_rows a <> [] -> ta_budget a = None -> warmed c t t1 ->
  (0 < t_splits t ->
     (tc_max_leaves c = Some (length (t_leaves t)) -> tree_fit M c t1 (None, None) e1 = Err GenericException) /\
     (tc_max_leaves c = Some (S (length (t_leaves t))) -> exists t2, tree_fit M c t1 (None, None) e1 = Ok (t2, e1)) /\
     (tc_max_leaves c <> Some (length (t_leaves t)) -> tc_max_leaves c <> Some (S (length (t_leaves t))) -> tree_fit M c t1 (None, None) e1 = Err AttributeError)) /\
  (t_splits t = 0 ->
     (tc_max_leaves c = Some 1 -> tree_fit M c t1 (None, None) e1 = Err GenericException) /\
     (tc_max_leaves c <> Some 1 -> exists t2, tree_fit M c t1 (None, None) e1 = Ok (t2, e1))).
Proof. exact fit_again. Qed.
Print Assumptions C166_fit_again.

(** Four leaves without a limit, with a limit of four, and with a limit of five; and labels that
    are all the same. *)
Example C166_ex : train_rows eight <> [] /\ ta_budget eight = None /\
  (forall m, In m [None; Some 4; Some 5] -> exists t, built P0 M0 (with_leaf_limit (grow_cfg false 3) m) eight env0 t /\ t_splits t = 3 /\ length (t_leaves t) = 4) /\
  exists t, built P0 M0 (grow_cfg false 3) constant_eight env0 t /\ t_splits t = 0.
Proof. exact twice_runs. Qed.

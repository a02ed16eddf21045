(** Specification of the batch of rows a bandit search looks at. *)
From Coq Require Import List Arith Bool ZArith QArith Qcanon.
From Verif Require Import Base Num Rng Histogram Utils Criteria Solvers Tree Spec SolverSpec TreeSpec.
Import ListNotations.
Local Open Scope nat_scope.

(** J: a batch of at most k of the rows I, by position; each position once unless rows are
    drawn with replacement; all of I, in order, when it fits in the batch. *)
Definition batch_of (k : nat) (repl : bool) (I J : list nat) : Prop :=
  exists ps, length ps = Nat.min k (length I) /\ (forall p, In p ps -> p < length I) /\ (repl = false -> NoDup ps) /\
    (length I <= k -> ps = seq 0 (length I)) /\ J = map (fun p => nth p I 0) ps.

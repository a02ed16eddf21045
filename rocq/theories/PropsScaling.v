(** What the scaling experiment records. *)
From Coq Require Import List Arith Bool ZArith QArith Qcanon.
From Verif Require Import Base Num Rng Histogram Utils Criteria Solvers Tree Forest Wrappers Compare Scaling Spec SolverSpec TreeSpec ForestSpec ScalingSpec ScalingThms Samples TreeWitness InvarWitness ForestWitness ScalingWitness.
Import ListNotations.
Local Open Scope nat_scope.

(** ** C178: one mean insertion count per size, and in classification a ceiling no size exceeds *)
Theorem C178_recorded : forall M P cl X Y n sizes e table e', 1 <= n -> investigate M P cl X Y n sizes e = Ok (table, e') ->
  map fst table = sizes /\ forall size v, In (size, v) table ->
    exists qs, length qs = n /\ v = Fin (mean (map rat qs)) /\ forall k, k < n -> exists e0 c, one_fit M P cl X Y size k e0 c (nth k qs 0).
Proof. exact recorded. Qed.
Print Assumptions C178_recorded.
Theorem C178_settings : forall M P cl X Y size s e c q, one_fit M P cl X Y size s e c q -> sweep_settings cl c.
Proof. exact fit_settings. Qed.
Print Assumptions C178_settings.
(** Five trees of at most 31 searched nodes, one batch of 1000 rows of ceil(sqrt(W)) columns each. *)
Theorem C178_class_ceiling : forall M P X Y n sizes e table e' W, 1 <= n -> investigate M P true X Y n sizes e = Ok (table, e') ->
  rectangular W X -> 1 <= W -> length Y = length X -> (forall y, In y Y -> trunc y = y) ->
  forall size v, In (size, v) table -> 1 <= size -> exists q, v = Fin q /\ (0 <= q)%Qc /\ (q <= rat (5 * (1000 * Nat.sqrt_up W * 31)))%Qc.
Proof. exact class_table_bound. Qed.
Print Assumptions C178_class_ceiling.
Example C178_ex : rectangular 2 X6 /\ length Y6 = length X6 /\ (forall y, In y Y6 -> trunc y = y) /\
  six_sweep true = Some [(3, Some 18%Q); (6, Some 48%Q); (9, Some 54%Q)] /\ six_sweep false = Some [(3, Some 18%Q); (6, Some 48%Q); (9, Some 54%Q)].
Proof. split; [exact six_rect|]. split; [reflexivity|]. split; [exact six_whole|]. split; vm_compute; reflexivity. Qed.

(** Fitting on a table whose rows are all repeated. *)
From Coq Require Import List Arith Bool ZArith QArith Qcanon Lia Permutation.
From Verif Require Import Base Num Rng Histogram Utils Criteria Solvers Tree Samples Spec SolverSpec TreeSpec InvarSpec CopySpec NumFacts TreeWitness TrustWitness InvarWitness CopyFacts CopySim CopyWitness.
Import ListNotations.
Local Open Scope nat_scope.

(** ** C150: every row k times *)
Theorem C150_repeated_rows : forall P M c a a' W k e e' t, 1 <= k -> trainable c a W -> fixed_grid c -> tc_log_split c = false -> (tc_class c = true -> good_classes (tc_classes c)) ->
  repeated k a a' -> built P M c a e t ->
  exists t', built P M (repeat_cfg k c) a' e' t' /\ tree_times k t t' /\ forall x, answer (tree_predict (repeat_cfg k c) t' x) = answer (tree_predict c t x).
Proof. exact repeated_tree. Qed.
Print Assumptions C150_repeated_rows.
(** make_huge d makes 2^d copies. *)
Theorem C150_make_huge_copies : forall (A B : Type) d (x : list A) (y : list B), make_huge d x y = (copies (2 ^ d) x, copies (2 ^ d) y).
Proof. exact @make_huge_copies. Qed.
Print Assumptions C150_make_huge_copies.
Theorem C150_make_huge : forall P M c a W d e e' t, trainable c a W -> fixed_grid c -> tc_log_split c = false -> (tc_class c = true -> good_classes (tc_classes c)) ->
  ta_idcs a = None -> built P M c a e t ->
  exists t', built P M (repeat_cfg (2 ^ d) c) (huge_args d a) e' t' /\ tree_times (2 ^ d) t t' /\ forall x, answer (tree_predict (repeat_cfg (2 ^ d) c) t' x) = answer (tree_predict c t x).
Proof. exact huge_tree. Qed.
Print Assumptions C150_make_huge.
(** With the same min_samples_split the tree fitted on the doubled table can answer otherwise. *)
Theorem C150_unscaled_refuted : exists P M c a W e t t' x, trainable c a W /\ fixed_grid c /\ tc_log_split c = false /\ good_classes (tc_classes c) /\ ta_idcs a = None /\
  built P M c a e t /\ built P M c (huge_args 1 a) e t' /\ In x (ta_data a) /\ answer (tree_predict c t' x) <> answer (tree_predict c t x).
Proof. exact unscaled_differs. Qed.
Print Assumptions C150_unscaled_refuted.

(** ** The hypotheses are met: trees with a split, within a budget of 50 queries *)
Example C150_hypotheses : forall c Y, (c = cfg_class /\ Y = Y6) \/ (c = cfg_lin_exact /\ Y = Y6) \/ (c = cfg_reg /\ Y = T6) ->
  trainable c (plain Y (Some 50%Z)) 2 /\ fixed_grid c /\ tc_log_split c = false /\ good_classes (tc_classes c) /\
  repeated 3 (plain Y (Some 50%Z)) (repeat_args 3 (plain Y (Some 50%Z))) /\ exists t, built P0 M0 c (plain Y (Some 50%Z)) env0 t /\ 1 <= t_splits t.
Proof.
  intros c Y C. destruct (plain_trainable (Some 50%Z)) as (T1 & T2 & T4). split; [destruct C as [[-> ->]|[[-> ->]|[-> ->]]]; auto|].
  split; [destruct C as [[-> ->]|[[-> ->]|[-> ->]]]; (split; [reflexivity|split; [first [now right|now left]|first [exact I|right; cbn; lia]]])|].
  split; [destruct C as [[-> ->]|[[-> ->]|[-> ->]]]; reflexivity|]. split.
  { assert (E : tc_classes c = [(z 0, 0); (z 1, 1)]) by (destruct C as [[-> ->]|[[-> ->]|[-> ->]]]; reflexivity). rewrite E.
    split; [|split]; [repeat constructor; cbn; intuition discriminate|repeat constructor; cbn; intuition discriminate|]. intros k i [Q|[Q|[]]]; injection Q as _ <-; cbn; lia. }
  split; [apply repeat_repeated; [lia|reflexivity|destruct C as [[_ ->]|[[_ ->]|[_ ->]]]; reflexivity]|].
  assert (K : check (run_with P0 M0 c (plain Y (Some 50%Z)) env0) (fun t => 1 <=? t_splits t) = true) by (destruct C as [[-> ->]|[[-> ->]|[-> ->]]]; vm_compute; reflexivity).
  apply check_run in K. destruct K as [t [H Q]]. exists t. split; [now apply run_built|now apply Nat.leb_le].
Qed.

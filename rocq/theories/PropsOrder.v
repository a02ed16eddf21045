(** What the order of the columns matters for. *)
From Coq Require Import List Arith Bool ZArith QArith Qcanon Permutation.
From Verif Require Import Base Num Rng Histogram Utils Criteria Solvers Tree Spec SolverSpec TreeSpec ColSpec GrowSpec OrderSpec OrderThms Samples TreeWitness ForestWitness TrainWitness OrderWitness.
Import ListNotations.
Local Open Scope nat_scope.

(** ** C164: the order of the columns matters for ties only *)
Theorem C164_column_order : forall P P' M c a W keep e e' t t' sh, exhaustive c a -> tc_minmax c = None -> trainable c a W -> train_feats a = seq 0 W -> NoDup keep -> keep <> [] -> (forall k, In k keep -> k < W) ->
  built P M c a e t -> built P' M c (select_columns keep a) e' t' -> has_shape t 0 sh -> (forall s, In s (columns_of sh) -> In s keep) ->
  (has_shape t' 0 (rename (place keep) sh) <-> order_kept M c a keep sh).
Proof. exact column_order. Qed.
Print Assumptions C164_column_order.

Theorem C164_ordered_answers : forall P P' M c a W keep e e' t t' sh x, exhaustive c a -> tc_minmax c = None -> trainable c a W -> train_feats a = seq 0 W -> NoDup keep -> keep <> [] -> (forall k, In k keep -> k < W) ->
  built P M c a e t -> built P' M c (select_columns keep a) e' t' -> has_shape t 0 sh -> order_kept M c a keep sh -> W <= length x ->
  answer (tree_predict c t' (select_row keep x)) = answer (tree_predict c t x).
Proof. exact ordered_answers. Qed.
Print Assumptions C164_ordered_answers.

Theorem C164_any_order : forall P P' M c a W keep e e' t t' sh, exhaustive c a -> tc_minmax c = None -> trainable c a W -> train_feats a = seq 0 W -> Permutation keep (seq 0 W) ->
  built P M c a e t -> built P' M c (select_columns keep a) e' t' -> has_shape t 0 sh -> untied M c a (seq 0 W) sh ->
  has_shape t' 0 (rename (place keep) sh) /\ forall x, W <= length x -> answer (tree_predict c t' (select_row keep x)) = answer (tree_predict c t x).
Proof. exact any_order. Qed.
Print Assumptions C164_any_order.
(** Three columns, eight rows, three splits on two of the columns, no ties. *)
Example C164_ex : exhaustive (grow_cfg false 3) eight /\ trainable (grow_cfg false 3) eight 3 /\ train_feats eight = seq 0 3 /\ Permutation [2; 0; 1] (seq 0 3) /\
  (exists t sh, built P0 M0 (grow_cfg false 3) eight env0 t /\ has_shape t 0 sh /\ untied M0 (grow_cfg false 3) eight (seq 0 3) sh /\ columns_of sh = [0; 0; 1] /\ length (leaf_sets sh) = 4) /\
  forall keep, Permutation keep (seq 0 3) -> exists t', built P1 M0 (grow_cfg false 3) (select_columns keep eight) env0 t'.
Proof.
  split; [apply eight_exhaustive|]. split; [apply eight_trainable|]. split; [reflexivity|]. split; [|split; [apply eight_run|apply eight_perm]].
  eapply perm_trans; [apply perm_swap|]. apply perm_skip. apply perm_swap.
Qed.

(** With ties it does matter. *)
Theorem C164_ties_matter : exists P M c a W keep e t t' x, exhaustive c a /\ tc_minmax c = None /\ trainable c a W /\ train_feats a = seq 0 W /\ Permutation keep (seq 0 W) /\
  built P M c a e t /\ built P M c (select_columns keep a) e t' /\ In x (ta_data a) /\ answer (tree_predict c t' (select_row keep x)) <> answer (tree_predict c t x).
Proof. exact ties_matter. Qed.
Print Assumptions C164_ties_matter.

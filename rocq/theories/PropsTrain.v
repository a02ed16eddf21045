(** Training error: how well trees and boosted forests reproduce the labels they were fitted to.
    The vocabulary ([train_points], [sq_error], [hits], [leafwise], [unlimited], [uninformative],
    [determines], ...) is in TrainSpec.v, TreeSpec.v and ForestSpec.v. *)
From Coq Require Import List Arith Bool ZArith QArith Qcanon Lia.
From Verif Require Import Base Num Rng Histogram Utils Criteria Solvers Tree Forest Spec SolverSpec TreeSpec TrainSpec ForestSpec Samples TreeWitness ForestWitness TrainFacts TrainExact BoostError TrainWitness.
Import ListNotations.
Local Open Scope nat_scope.

(** ** C144: a regression tree's training error *)
Theorem C144_training_error : forall P M c a e t, built P M c a e t -> train_rows a <> [] ->
  forall ps t', tc_class c = false -> tree_predict_batch c t (train_points a) = Ok (ps, t') ->
  (forall g, leafwise t g -> (sq_error (train_labels a) (map number_of ps) <= sq_error (train_labels a) (map g (train_rows a)))%Qc) /\
  (sq_error (train_labels a) (map number_of ps) <= rat (length (train_rows a)) * variance (train_labels a))%Qc.
Proof. exact training_error. Qed.
Print Assumptions C144_training_error.

(** ** C145: a classification tree's training accuracy *)
Theorem C145_training_accuracy : forall P M c a e t, built P M c a e t -> train_rows a <> [] ->
  forall ps t', tc_class c = true -> good_classes (tc_classes c) -> tree_predict_batch c t (train_points a) = Ok (ps, t') ->
  (forall g, leafwise t g -> hits (train_labels a) (map g (train_rows a)) <= hits (train_labels a) (map label_of ps)) /\
  (forall k, occurrences k (train_labels a) <= hits (train_labels a) (map label_of ps)).
Proof. exact training_hits. Qed.
Print Assumptions C145_training_accuracy.
(** Trees with splits and their answers on the training rows. [six_run] fits, demands a split, predicts
    the training rows, and compares. *)
Example C144_C145_ex : six_run true 1 = true /\ six_run true 2 = true /\ six_run false 1 = true /\ six_run false 2 = true.
Proof. exact six_runs. Qed.

(** ** C146: the impurity that the splits remove *)
Theorem C146_impurity_accounts : forall P M c a e t W, trainable c a W -> built P M c a e t -> tc_solver c = EXACT -> bins_ok c ->
  leaf_impurity M c a t = (tree_impurity M c (train_labels a) + split_changes t)%Qc.
Proof. exact impurity_accounts. Qed.
Print Assumptions C146_impurity_accounts.
Theorem C146_splits_lower_impurity : forall P M c a e t W, trainable c a W -> built P M c a e t -> tc_solver c = EXACT -> bins_ok c ->
  (split_changes t <= 0)%Qc /\ (0 < t_splits t -> (split_changes t < 0)%Qc).
Proof. exact changes_sign. Qed.
Print Assumptions C146_splits_lower_impurity.
Theorem C146_error_accounts : forall P M c a e t W, trainable c a W -> built P M c a e t -> tc_solver c = EXACT -> bins_ok c ->
  forall ps t', tc_class c = false -> tree_predict_batch c t (train_points a) = Ok (ps, t') ->
  (sq_error (train_labels a) (map number_of ps) = rat (length (train_rows a)) * (variance (train_labels a) + split_changes t))%Qc.
Proof. exact training_accounts. Qed.
Print Assumptions C146_error_accounts.
Example C146_ex : trainable (grow_cfg false 2) (grow_args X6 T6) 2 /\ tc_solver (grow_cfg false 2) = EXACT /\ bins_ok (grow_cfg false 2) /\ six_run false 2 = true.
Proof. split; [exact (six_trainable false 2)|]. split; [reflexivity|]. split; [exact Logic.I|exact (proj2 (proj2 (proj2 six_runs)))]. Qed.

(** ** C147: boosting rounds and the training error *)
Theorem C147_boosting_never_hurts : forall M P c f arg h e f1 h1 e1 data r ys lr, forest_fit M P c f arg h e = Ok (f1, h1, e1) -> fit_data f arg = Some data ->
  fc_class c = false -> fc_boosting c = true -> all_rows c -> fc_lr c = Some lr -> (0 <= lr)%Qc -> (lr <= 1 + 1)%Qc ->
  boost_ref f arg = Some r -> nth_error h r = Some {| la_int := false; la_vals := ys |} -> length ys = length data ->
  forall vs : nat -> list Qc, (forall i, i < length data -> votes f1 (nth i data []) (map PReg (vs i))) ->
  let err k := sq_error ys (map (fun i => boosted lr (firstn k (vs i))) (seq 0 (length data))) in
  (forall k k', k <= k' -> (err k' <= err k)%Qc) /\ (f_trees f1 <> [] -> (err 1%nat <= rat (length ys) * variance ys)%Qc).
Proof. exact boosting_error. Qed.
Print Assumptions C147_boosting_never_hurts.
Theorem C147_residuals_never_grow : forall M P c f arg h e f1 h1 e1 data r la lr, forest_fit M P c f arg h e = Ok (f1, h1, e1) -> fit_data f arg = Some data ->
  fc_class c = false -> fc_boosting c = true -> fc_bootstrap c = false -> fc_lr c = Some lr -> (0 <= lr)%Qc -> (lr <= 1 + 1)%Qc -> boost_ref f arg = Some r -> nth_error h r = Some la ->
  exists la', nth_error h1 r = Some la' /\ (sum_sq (la_vals la') <= sum_sq (la_vals la))%Qc.
Proof. exact residuals_shrink. Qed.
Print Assumptions C147_residuals_never_grow.
Example C147_ex : check (frun P1 fc_bo X6 (heap_of T6) None None) (fun r => (length (f_trees (fst (fst r))) =? 3) && forallb (fun x => check (mapM (fun ct => answer (tree_predict (fst ct) (snd ct) x)) (f_trees (fst (fst r)))) (fun _ => true)) X6 && negb (grew (heap_of T6) (snd (fst r)))) = true /\
  all_rows fc_bo /\ fc_lr fc_bo = Some (frac 1 2) /\ (0 <= frac 1 2)%Qc /\ (frac 1 2 <= 1 + 1)%Qc /\ length T6 = length X6.
Proof. exact boost_ex. Qed.
(** The bound on the rate and the condition on the sampling are needed. *)
Theorem C147_large_rate_refuted : exists P M c X h e f0 e0 f1 h1 e1 lr la la', forest_new P c (Some X) (Some 0) None None h e = Ok (f0, e0) /\ forest_fit M P c f0 (None, None) h e0 = Ok (f1, h1, e1) /\
  fc_class c = false /\ fc_boosting c = true /\ all_rows c /\ fc_lr c = Some lr /\ (1 + 1 < lr)%Qc /\ boost_ref f0 (None, None) = Some 0 /\ nth_error h 0 = Some la /\ nth_error h1 0 = Some la' /\ (sum_sq (la_vals la) < sum_sq (la_vals la'))%Qc.
Proof. exact rate_grows. Qed.
Print Assumptions C147_large_rate_refuted.
Theorem C147_bootstrap_refuted : exists P M c X h e f0 e0 f1 h1 e1 lr la la', forest_new P c (Some X) (Some 0) None None h e = Ok (f0, e0) /\ forest_fit M P c f0 (None, None) h e0 = Ok (f1, h1, e1) /\
  fc_class c = false /\ fc_boosting c = true /\ fc_bootstrap c = true /\ fc_lr c = Some lr /\ (0 < lr)%Qc /\ (lr < 1)%Qc /\ boost_ref f0 (None, None) = Some 0 /\ nth_error h 0 = Some la /\ nth_error h1 0 = Some la' /\ (sum_sq (la_vals la) < sum_sq (la_vals la'))%Qc.
Proof. exact bootstrap_grows. Qed.
Print Assumptions C147_bootstrap_refuted.

(** ** C148: fully grown exact trees *)
Theorem C148_why_leaves_stop : forall P M c a e t W, trainable c a W -> built P M c a e t -> tc_solver c = EXACT -> bins_ok c ->
  unlimited c a -> tc_bin c = IDENTITY -> (tc_class c = true -> tc_crit c <> ENTROPY) ->
  forall leaf nd, In leaf (t_leaves t) -> node_at t leaf nd ->
  length (node_rows t leaf) <= tc_min_split c \/ ~ varied (labels_at (ta_labels a) (node_rows t leaf)) \/ forall s, In s (nd_feats nd) -> uninformative c a (node_rows t leaf) s.
Proof. exact leaf_exhausted. Qed.
Print Assumptions C148_why_leaves_stop.
Theorem C148_reproduces : forall P M c a e t W, trainable c a W -> built P M c a e t -> tc_solver c = EXACT -> bins_ok c ->
  forall ps t', unlimited c a -> tc_bin c = IDENTITY -> (tc_class c = true -> tc_crit c <> ENTROPY /\ good_classes (tc_classes c)) -> tc_min_split c <= 1 -> NoDup (train_feats a) ->
  (tc_fsub c = FSNone /\ (exists s, In s (train_feats a) /\ determines a s)) \/ (forall s, In s (train_feats a) -> determines a s) ->
  tree_predict_batch c t (train_points a) = Ok (ps, t') ->
  (if tc_class c then map label_of ps else map number_of ps) = train_labels a.
Proof. exact reproduces. Qed.
Print Assumptions C148_reproduces.
Example C148_ex (cl : bool) : let a := grow_args X6 (if cl then Y6 else T6) in trainable (grow_cfg cl 1) a 2 /\ unlimited (grow_cfg cl 1) a /\ tc_solver (grow_cfg cl 1) = EXACT /\ bins_ok (grow_cfg cl 1) /\ tc_bin (grow_cfg cl 1) = IDENTITY /\
  tc_crit (grow_cfg cl 1) <> ENTROPY /\ good_classes (tc_classes (grow_cfg cl 1)) /\ tc_min_split (grow_cfg cl 1) <= 1 /\ tc_fsub (grow_cfg cl 1) = FSNone /\ determines a 0 /\ six_run cl 1 = true.
Proof.
  intros a. split; [exact (six_trainable cl 1)|]. split; [apply grow_unlimited|]. split; [reflexivity|]. split; [exact Logic.I|]. split; [reflexivity|]. split; [destruct cl; discriminate|]. split; [exact grow_goods|]. split; [cbn; lia|]. split; [reflexivity|].
  split; [exact (six_determined cl)|]. destruct six_runs as (A & _ & B & _). destruct cl; assumption.
Qed.
(** Consistent labels are not enough, and neither is the default minimum of two rows. *)
Theorem C148_consistent_labels_refuted : exists P M c a e t ps t' W, trainable c a W /\ built P M c a e t /\ tc_solver c = EXACT /\ tc_bin c = IDENTITY /\ unlimited c a /\ tc_min_split c <= 1 /\
  tc_class c = true /\ tc_crit c = GINI /\ good_classes (tc_classes c) /\ consistent a /\ tree_predict_batch c t (train_points a) = Ok (ps, t') /\ map label_of ps <> train_labels a.
Proof. exact xor_fails. Qed.
Print Assumptions C148_consistent_labels_refuted.
Theorem C148_default_minimum_refuted : exists P M c a e t ps t' W, trainable c a W /\ built P M c a e t /\ tc_solver c = EXACT /\ tc_bin c = IDENTITY /\ unlimited c a /\ tc_min_split c = 2 /\
  tc_class c = true /\ tc_crit c = GINI /\ good_classes (tc_classes c) /\ (forall s, In s (train_feats a) -> determines a s) /\ length (train_rows a) = 2 /\
  tree_predict_batch c t (train_points a) = Ok (ps, t') /\ map label_of ps <> train_labels a.
Proof. exact two_rows_fail. Qed.
Print Assumptions C148_default_minimum_refuted.

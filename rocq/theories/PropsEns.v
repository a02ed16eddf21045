(** A forest and its trees: errors on any test set. *)
From Coq Require Import List Arith Bool ZArith QArith Qcanon Lia.
From Verif Require Import Base Num Rng Histogram Utils Criteria Solvers Tree Forest Samples Spec SolverSpec TreeSpec ForestSpec EnsSpec TreeWitness ForestWitness EnsThms EnsWitness.
Import ListNotations.
Local Open Scope nat_scope.

(** ** C165: averaging trees never hurts the squared error *)
Theorem C165_squared_error : forall M P c f0 arg h0 e0 f1 h1 e1 f, forest_fit M P c f0 arg h0 e0 = Ok (f1, h1, e1) -> used c h1 f1 f ->
  forall data, fit_data f0 arg = Some data -> some_rows c (length data) ->
  forall test, fc_class c = false -> fc_boosting c = false -> test <> [] ->
  (forall x y, In (x, y) test -> exists v f', forest_predict c f x = Ok (FReg v, f')) ->
  (forall x y ct, In (x, y) test -> In ct (f_trees f) -> exists v, answer (tree_predict (fst ct) (snd ct) x) = Ok (PReg v)) /\
  squared_error (forest_value c f) test =
    (mean (map (fun ct => squared_error (tree_value ct) test) (f_trees f)) -
     mean (map (fun p => variance (map (fun ct => tree_value ct (fst p)) (f_trees f))) test))%Qc /\
  (squared_error (forest_value c f) test <= mean (map (fun ct => squared_error (tree_value ct) test) (f_trees f)))%Qc /\
  exists ct, In ct (f_trees f) /\ (squared_error (forest_value c f) test <= squared_error (tree_value ct) test)%Qc.
Proof. exact forest_squared_error. Qed.
Print Assumptions C165_squared_error.

Theorem C165_brier_score : forall M P c f0 arg h0 e0 f1 h1 e1 f, forest_fit M P c f0 arg h0 e0 = Ok (f1, h1, e1) -> used c h1 f1 f ->
  forall data, fit_data f0 arg = Some data -> some_rows c (length data) ->
  forall test classes, fc_class c = true -> good_classes (f_classes f0) -> f_ncl f0 = length (f_classes f0) -> test <> [] -> length classes = length (f_classes f0) ->
  (forall x y, In (x, y) test -> exists l avg f', forest_predict c f x = Ok (FClass l avg, f')) ->
  (forall x y ct, In (x, y) test -> In ct (f_trees f) -> exists l probs, answer (tree_predict (fst ct) (snd ct) x) = Ok (PClass l probs)) /\
  brier classes (forest_prob c f) test =
    (mean (map (fun ct => brier classes (tree_prob ct) test) (f_trees f)) -
     mean (map (fun p => total (map (fun j => variance (map (fun ct => tree_prob ct (fst p) j) (f_trees f))) (seq 0 (length classes)))) test))%Qc /\
  (brier classes (forest_prob c f) test <= mean (map (fun ct => brier classes (tree_prob ct) test) (f_trees f)))%Qc /\
  exists ct, In ct (f_trees f) /\ (brier classes (forest_prob c f) test <= brier classes (tree_prob ct) test)%Qc.
Proof. exact forest_brier. Qed.
Print Assumptions C165_brier_score.

(** The same is not true of the accuracy. *)
Theorem C165_accuracy_lower : exists f0 e0 f1 h1 e1 test, forest_new P1 fc_cl (Some X6) (Some 0) None None (heap_of Y6) env0 = Ok (f0, e0) /\
  forest_fit M0 P1 fc_cl f0 (None, None) (heap_of Y6) e0 = Ok (f1, h1, e1) /\ test <> [] /\
  (forall x y, In (x, y) test -> exists l avg f', forest_predict fc_cl f1 x = Ok (FClass l avg, f')) /\
  (hits (forest_says fc_cl f1) test < mean (map (fun ct => hits (tree_says ct) test) (f_trees f1)))%Qc.
Proof. exact accuracy_lower. Qed.
Print Assumptions C165_accuracy_lower.

Example C165_reg : some_rows fc_re (length X6) /\ exists f0 e0 f1 h1 e1, forest_new P1 fc_re (Some X6) (Some 0) None None (heap_of T6) env0 = Ok (f0, e0) /\
  forest_fit M0 P1 fc_re f0 (None, None) (heap_of T6) e0 = Ok (f1, h1, e1) /\ fit_data f0 (None, None) = Some X6 /\ length (f_trees f1) = 3 /\
  (forall x y, In (x, y) (test_of T6) -> exists v f', forest_predict fc_re f1 x = Ok (FReg v, f')) /\
  (0 < spread (f_trees f1) (test_of T6))%Qc.
Proof. split; [apply some_rows_ex|exact ens_reg]. Qed.
Example C165_class : some_rows fc_cl (length X6) /\ exists f0 e0 f1 h1 e1, forest_new P1 fc_cl (Some X6) (Some 0) None None (heap_of Y6) env0 = Ok (f0, e0) /\
  forest_fit M0 P1 fc_cl f0 (None, None) (heap_of Y6) e0 = Ok (f1, h1, e1) /\ fit_data f0 (None, None) = Some X6 /\ f_ncl f0 = length (f_classes f0) /\ good_classes (f_classes f0) /\
  length (map fst (f_classes f0)) = 2 /\
  (forall x y, In (x, y) (test_of Y6) -> exists l avg f', forest_predict fc_cl f1 x = Ok (FClass l avg, f')) /\
  (brier (map fst (f_classes f0)) (forest_prob fc_cl f1) (test_of Y6) < mean (map (fun ct => brier (map fst (f_classes f0)) (tree_prob ct) (test_of Y6)) (f_trees f1)))%Qc.
Proof. split; [apply some_rows_ex|exact ens_class]. Qed.

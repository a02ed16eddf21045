(** What a tree does not depend on. The vocabulary ([reordered], [rescaling], [relabelling],
    [same_tree], ...) is in InvarSpec.v. *)
From Coq Require Import List Arith Bool ZArith QArith Qcanon Lia Permutation.
From Verif Require Import Base Num Rng Histogram Utils Criteria Solvers Tree Spec SolverSpec TreeSpec InvarSpec Samples NumFacts TreeWitness InvarWitness TreeSim.
Import ListNotations.
Local Open Scope nat_scope.

(** ** C139: the order of the training rows *)
Theorem C139_row_order_irrelevant : forall P M c a a' W e e' t, trainable c a W -> fixed_grid c -> (tc_class c = true -> good_classes (tc_classes c)) ->
  reordered a a' -> built P M c a e t ->
  exists t', built P M c a' e' t' /\ same_tree same_units 1 t t' /\ forall x, answer (tree_predict c t' x) = answer (tree_predict c t x).
Proof. exact reordered_tree. Qed.
Print Assumptions C139_row_order_irrelevant.
(** The bandit search samples rows by position: with the same seed and the rows in another order
    it splits on another feature. *)
Theorem C139_bandit_refuted : exists P M c a a' W e t t' nd nd', trainable c a W /\ tc_solver c = MAB /\ tc_bin c = LINEAR /\ bins_ok c /\ reordered a a' /\ built P M c a e t /\ built P M c a' e t' /\
  node_at t 0 nd /\ node_at t' 0 nd' /\ nd_sf nd <> nd_sf nd'.
Proof. exact bandit_order. Qed.
Print Assumptions C139_bandit_refuted.

(** ** C140: the units of the features *)
Theorem C140_feature_units_irrelevant : forall P M c a W u e e' t, trainable c a W -> fixed_grid c -> (tc_class c = true -> good_classes (tc_classes c)) ->
  rescaling (tc_bin c) W u -> built P M c a e t ->
  exists t', built P M (rescale_cfg u c) (rescale_args u a) e' t' /\ same_tree u 1 t t' /\
    forall x, answer (tree_predict (rescale_cfg u c) t' (move_row u x)) = answer (tree_predict c t x).
Proof. exact rescaled_tree. Qed.
Print Assumptions C140_feature_units_irrelevant.
(** With equally spaced thresholds an increasing change of units that is not of the form
    k x + d can change the answer for a training row. *)
Theorem C140_curved_linear_refuted : exists P M c a W u e t t' x, trainable c a W /\ fixed_grid c /\ tc_bin c = LINEAR /\ (forall f, f < W -> increasing (u f)) /\
  built P M c a e t /\ built P M (rescale_cfg u c) (rescale_args u a) e t' /\ In x (ta_data a) /\
  answer (tree_predict (rescale_cfg u c) t' (move_row u x)) <> answer (tree_predict c t x).
Proof. exact curved_linear. Qed.
Print Assumptions C140_curved_linear_refuted.

(** ** C141: the units or the names of the labels *)
Theorem C141_label_units : forall P M c a W g s e e' t, trainable c a W -> fixed_grid c -> (tc_class c = true -> good_classes (tc_classes c)) ->
  relabelling c g s -> built P M c a e t ->
  exists t', built P M (relabel_cfg g s c) (relabel_args g a) e' t' /\ same_tree same_units s t t' /\
    forall x, answer (tree_predict (relabel_cfg g s c) t' x) = move_answer g (answer (tree_predict c t x)).
Proof. exact relabelled_tree. Qed.
Print Assumptions C141_label_units.

(** ** The hypotheses are met *)
Definition shuffled (Y : list Qc) : targs :=
  {| ta_data := rev X6; ta_labels := rev Y; ta_budget := None; ta_dd := None; ta_seed := 7; ta_idcs := Some [5; 2; 2; 1; 3; 4; 0]; ta_feats := None |}.
Example C139_hypotheses : trainable cfg_class (targs_of Y6) 2 /\ fixed_grid cfg_class /\ good_classes (tc_classes cfg_class) /\ reordered (targs_of Y6) (shuffled Y6) /\
  (exists t, built P0 M0 cfg_class (targs_of Y6) env0 t) /\ trainable cfg_lin_exact (targs_of Y6) 2 /\ fixed_grid cfg_lin_exact /\ (exists t, built P0 M0 cfg_lin_exact (targs_of Y6) env0 t).
Proof.
  destruct targs_trainable as (T1 & T2 & T3 & T4). destruct built_examples as (B1 & B2 & B3 & B4).
  split; [exact T1|]. split; [split; [reflexivity|split; [now right|exact I]]|]. split.
  { split; [|split]; [repeat constructor; cbn; intuition discriminate|repeat constructor; cbn; intuition discriminate|]. intros k i [E|[E|[]]]; injection E as _ <-; cbn; lia. }
  split.
  { constructor; try reflexivity.
    - change (Permutation (map (fun i => (nth i X6 [], nth i Y6 0%Qc)) [0; 1; 2; 3; 4; 5; 3]) (map (fun i => (nth i X6 [], nth i Y6 0%Qc)) [0; 3; 3; 4; 2; 1; 5])).
      apply Permutation_map. apply (Permutation_count_occ Nat.eq_dec). intros x. do 6 (destruct x as [|x]; [reflexivity|]). reflexivity.
    - cbn. intros i Hi. repeat (destruct Hi as [<-|Hi]; [lia|]). destruct Hi. }
  split; [exact B1|]. split; [exact T4|]. split; [split; [reflexivity|split; [now left|right; cbn; lia]]|exact B4].
Qed.
(** Feature 0 bent, feature 1 in other units; with LINEAR bins both in other units. *)
Definition mixed : units := fun f => if f =? 0 then bend 0 else fun x => (z 3 * x + z (-7))%Qc.
Definition affine : units := fun f x => (frac 9 5 * x + z 32)%Qc.
Example C140_hypotheses : rescaling (tc_bin cfg_class) 2 mixed /\ rescaling (tc_bin cfg_lin_exact) 2 affine /\ rescaling (tc_bin cfg_reg) 2 mixed /\
  trainable cfg_reg (targs_of T6) 2 /\ fixed_grid cfg_reg /\ tc_class cfg_reg = false /\ exists t, built P0 M0 cfg_reg (targs_of T6) env0 t.
Proof.
  assert (K : forall k d, (0 < k)%Qc -> increasing (fun x => (k * x + d)%Qc)) by (intros k d H x y L; qnra).
  assert (R : rescaling IDENTITY 2 mixed).
  { intros f Hf. split; [|discriminate]. unfold mixed. destruct (f =? 0); [apply bend_increasing|]. apply K. apply qlt_spec. vm_compute. reflexivity. }
  split; [exact R|]. split.
  { intros f Hf. split; [apply K; apply qlt_spec; vm_compute; reflexivity|]. intros _. exists (frac 9 5), (z 32). reflexivity. }
  split; [exact R|]. split; [apply targs_trainable|]. split; [split; [reflexivity|split; [now right|exact I]]|]. split; [reflexivity|]. apply built_examples.
Qed.
(** Classes 0 and 1 renamed to 1 and 0; targets y replaced by 5 - 2 y. *)
Example C141_hypotheses : relabelling cfg_class (fun y => (z 1 - y)%Qc) 1 /\ relabelling cfg_reg (fun y => (z (-2) * y + z 5)%Qc) (z 4).
Proof.
  split; [split; [reflexivity|intros x y _ _ H; qlra]|]. exists (z (-2)), (z 5). split; [discriminate|]. split; [apply Qc_is_canon; vm_compute; reflexivity|reflexivity].
Qed.

(** Adding a column that brings nothing new, and dropping columns the tree does not use. *)
From Coq Require Import List Arith Bool ZArith QArith Qcanon Lia Sorted.
From Verif Require Import Base Num Rng Histogram Utils Criteria Solvers Tree Samples Spec SolverSpec TreeSpec ColSpec NumFacts TreeWitness TrustWitness InvarWitness CopyWitness ColThms ColWitness.
Import ListNotations.
Local Open Scope nat_scope.

(** ** C153: one more column *)
Theorem C153_idle_column : forall P M c a W x e e' t, trainable c a W -> all_columns c -> ta_dd a = None -> ta_budget a = None -> length x = length (ta_data a) ->
  idle M c a W x -> built P M c a e t ->
  exists t', built P M c (add_column W x a) e' t' /\ col_tree (fun k => k) t t' /\ forall r v, length r = W -> answer (tree_predict c t' (r ++ [v])) = answer (tree_predict c t r).
Proof. exact idle_tree. Qed.
Print Assumptions C153_idle_column.
(** A function of another column that never goes down, or never goes up, is such a column when all
    values are thresholds. *)
Theorem C153_monotone_column : forall P M c a W x k e e' t, trainable c a W -> all_columns c -> ta_dd a = None -> ta_budget a = None -> length x = length (ta_data a) ->
  tc_bin c = IDENTITY -> In k (train_feats a) ->
  (forall i j, In i (train_rows a) -> In j (train_rows a) -> (cell (ta_data a) i k <= cell (ta_data a) j k)%Qc -> (nth i x 0 <= nth j x 0)%Qc) \/
  (forall i j, In i (train_rows a) -> In j (train_rows a) -> (cell (ta_data a) i k <= cell (ta_data a) j k)%Qc -> (nth j x 0 <= nth i x 0)%Qc) -> built P M c a e t ->
  exists t', built P M c (add_column W x a) e' t' /\ col_tree (fun k => k) t t' /\ forall r v, length r = W -> answer (tree_predict c t' (r ++ [v])) = answer (tree_predict c t r).
Proof. exact monotone_column. Qed.
Print Assumptions C153_monotone_column.
(** A copy, a constant, another column in other units: for equally spaced thresholds as well. *)
Theorem C153_affine_column : forall P M c a W x k s d e e' t, trainable c a W -> all_columns c -> ta_dd a = None -> ta_budget a = None -> length x = length (ta_data a) ->
  In k (train_feats a) -> (0 <= s)%Qc -> (forall i, In i (train_rows a) -> nth i x 0%Qc = (s * cell (ta_data a) i k + d)%Qc) -> built P M c a e t ->
  exists t', built P M c (add_column W x a) e' t' /\ col_tree (fun k => k) t t' /\ forall r v, length r = W -> answer (tree_predict c t' (r ++ [v])) = answer (tree_predict c t r).
Proof. exact affine_column. Qed.
Print Assumptions C153_affine_column.
(** With equally spaced thresholds the negative of a column can change the answers. *)
Theorem C153_mirrored_refuted : exists P M c a W x e t t' r v, trainable c a W /\ all_columns c /\ ta_dd a = None /\ ta_budget a = None /\ length x = length (ta_data a) /\
  (forall i, In i (train_rows a) -> nth i x 0%Qc = (- cell (ta_data a) i 0)%Qc) /\ built P M c a e t /\ built P M c (add_column W x a) e t' /\
  In r (ta_data a) /\ In (r ++ [v]) (ta_data (add_column W x a)) /\ answer (tree_predict c t' (r ++ [v])) <> answer (tree_predict c t r).
Proof. exact mirrored. Qed.
Print Assumptions C153_mirrored_refuted.

(** ** C154: only the columns in use *)
Theorem C154_dropped_columns : forall M c a W keep, trainable c a W -> all_columns c -> train_feats a = seq 0 W -> StronglySorted lt keep -> keep <> [] -> (forall k, In k keep -> k < W) ->
  tc_bin c = IDENTITY \/ told_apart keep a -> forall P e e' t, ta_dd a = None -> ta_budget a = None -> built P M c a e t -> uses_only keep t ->
  exists t', built P M c (select_columns keep a) e' t' /\ col_tree (place keep) t t' /\ forall r, length r = W -> answer (tree_predict c t' (select_row keep r)) = answer (tree_predict c t r).
Proof. exact dropped_columns. Qed.
Print Assumptions C154_dropped_columns.
(** With equally spaced thresholds, training without a column that is not used can raise. *)
Theorem C154_unused_refuted : exists P M c a W keep e t, trainable c a W /\ all_columns c /\ ta_dd a = None /\ ta_budget a = None /\ ta_feats a = None /\ StronglySorted lt keep /\ keep <> [] /\ (forall k, In k keep -> k < W) /\
  built P M c a e t /\ uses_only keep t /\ ~ exists t', built P M c (select_columns keep a) e t'.
Proof. exact unused_needed. Qed.
Print Assumptions C154_unused_refuted.

(** ** The hypotheses are met *)
Example C153_monotone_ex : trainable cfg_class (targs_of Y6) 2 /\ all_columns cfg_class /\ length up = length X6 /\ length down = length X6 /\ tc_bin cfg_class = IDENTITY /\ In 0 (train_feats (targs_of Y6)) /\
  (forall i j, In i (train_rows (targs_of Y6)) -> In j (train_rows (targs_of Y6)) -> (cell X6 i 0 <= cell X6 j 0)%Qc -> (nth i up 0 <= nth j up 0)%Qc) /\
  (forall i j, In i (train_rows (targs_of Y6)) -> In j (train_rows (targs_of Y6)) -> (cell X6 i 0 <= cell X6 j 0)%Qc -> (nth j down 0 <= nth i down 0)%Qc) /\
  exists t, built P0 M0 cfg_class (targs_of Y6) env0 t /\ 1 <= t_splits t.
Proof.
  split; [apply targs_trainable|]. split; [apply class_columns|]. do 3 (split; [reflexivity|]). split; [cbn; auto|]. split; [apply leb_on_spec; vm_compute; reflexivity|]. split.
  { intros i j Hi Hj LE. assert (H : leb_on (fun i => - cell X6 i 0)%Qc (fun i => nth i down 0%Qc) (train_rows (targs_of Y6)) = true) by (vm_compute; reflexivity). apply (leb_on_spec _ _ _ H j i); auto. clear - LE. qlra. }
  assert (K : check (run_with P0 M0 cfg_class (targs_of Y6) env0) (fun t => 1 <=? t_splits t) = true) by (vm_compute; reflexivity). apply check_run in K. destruct K as [t [H Q]]. exists t. split; [now apply run_built|now apply Nat.leb_le].
Qed.
Example C153_affine_ex : trainable cfg_lin_exact (targs_of Y6) 2 /\ all_columns cfg_lin_exact /\ length other_units = length X6 /\ In 1 (train_feats (targs_of Y6)) /\ (0 <= z 2)%Qc /\
  (forall i, In i (train_rows (targs_of Y6)) -> nth i other_units 0%Qc = (z 2 * cell X6 i 1 + z 5)%Qc) /\ exists t, built P0 M0 cfg_lin_exact (targs_of Y6) env0 t /\ 1 <= t_splits t.
Proof.
  split; [apply targs_trainable|]. split; [apply class_columns|]. split; [reflexivity|]. split; [cbn; auto|]. split; [apply qle_spec; vm_compute; reflexivity|]. split.
  { intros i H. cbn in H. repeat (destruct H as [<-|H]; [apply Qc_is_canon; vm_compute; reflexivity|]). destruct H. }
  assert (K : check (run_with P0 M0 cfg_lin_exact (targs_of Y6) env0) (fun t => 1 <=? t_splits t) = true) by (vm_compute; reflexivity). apply check_run in K. destruct K as [t [H Q]]. exists t. split; [now apply run_built|now apply Nat.leb_le].
Qed.
Example C154_ex : forall c, c = cfg_class \/ c = cfg_lin_exact -> trainable c (targs_of Y6) 2 /\ all_columns c /\ train_feats (targs_of Y6) = seq 0 2 /\ StronglySorted lt [0] /\ told_apart [0] (targs_of Y6) /\
  exists t, built P0 M0 c (targs_of Y6) env0 t /\ uses_only [0] t /\ 1 <= t_splits t.
Proof.
  intros c C. split; [destruct C as [->| ->]; apply targs_trainable|]. split; [destruct C as [->| ->]; apply class_columns|]. split; [reflexivity|]. split; [repeat constructor|]. split.
  { intros i j Hi Hj NE. exists 0. split; [now left|]. intros Z. apply NE. cbn in Hi, Hj. repeat (destruct Hi as [<-|Hi]; [repeat (destruct Hj as [<-|Hj]; [first [reflexivity|exfalso; apply (f_equal this) in Z; vm_compute in Z; discriminate]|]); destruct Hj|]). destruct Hi. }
  assert (K : check (run_with P0 M0 c (targs_of Y6) env0) (fun t => uses_onlyb [0] t && (1 <=? t_splits t)) = true) by (destruct C as [->| ->]; vm_compute; reflexivity). apply check_run in K. destruct K as [t [H Q]]. apply andb_true_iff in Q. exists t. split; [now apply run_built|]. split; [now apply uses_onlyb_spec|now apply Nat.leb_le].
Qed.

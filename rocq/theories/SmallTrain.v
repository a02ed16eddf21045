(** What the splits of a bandit tree remove when its rows fit in one batch. *)
From Coq Require Import List Arith Bool ZArith QArith Qcanon Lia Permutation Sorted.
From Verif Require Import Base Num Rng Histogram Utils Criteria Solvers Tree Spec SolverSpec TreeSpec TrainSpec NumFacts ListFacts HistFacts CritFacts ReductionFacts UtilsFacts TreeFacts CountFacts TreeThms TreeMore TreeValue TrainFacts TrainExact BanditSpec BanditThms BatchTree SmallTree.
Import ListNotations.
Local Open Scope nat_scope.

Section Small.
Context (P : prng) (M : math) (c : tcfg) (a : targs) (e : env) (t : tree) (W : nat).
Context (TR : trainable c a W) (HB : built P M c a e t) (SV : tc_solver c = MAB) (NID : tc_bin c <> IDENTITY) (BO : bins_ok c) (LS : tc_log_split c = false) (B6 : 6 <= tc_nb c) (LB : length (train_rows a) <= tc_batch c).
Notation D := (ta_data a).
Notation L := (ta_labels a).
Lemma NE : train_rows a <> [].
Proof. exact (tr_rows _ _ _ TR). Qed.
Lemma rows_len : 0 < length (train_rows a).
Proof. pose proof NE. destruct (train_rows a); [contradiction|cbn; lia]. Qed.

Definition share (id : nat) : Qc := (Nq (length (node_rows t id)) / Nq (length (train_rows a)) * tree_impurity M c (labels_at L (node_rows t id)))%Qc.

Lemma rows_pos : (Nq (length (train_rows a)) <> 0)%Qc.
Proof. apply Nq_neq0, rows_len. Qed.

Lemma split_share id nd l r : node_at t id nd -> nd_left nd = Some l -> nd_right nd = Some r -> recorded nd = (share l + share r - share id)%Qc /\ (recorded nd < 0)%Qc.
Proof.
  intros A EL ER. assert (NN : nd_left nd <> None) by congruence.
  destruct (small_split P M c a e t W TR HB SV NID BO LS B6 LB id nd A NN) as (s & v & E & f & S1 & S2 & S3 & S4 & S5 & S6 & _).
  destruct (split_node P M c a e t HB NE id nd A NN) as (l' & r' & s' & v' & I1 & I2 & I3 & I4 & I5 & I6 & I7 & _ & _ & RL & RR).
  assert (l' = l) by congruence. assert (r' = r) by congruence. assert (s' = s) by congruence. assert (v' = v) by congruence. subst l' r' s' v'.
  destruct (fitted_prop P M c a e t HB NE id nd A) as [PR _].
  assert (NZ : node_rows t id <> []). { rewrite (rows_of _ _ _ A). eapply no_ne, ti_node; [apply (built_tinv P M c a e t HB NE)|exact A]. }
  assert (NI : (Nq (length (node_rows t id)) <> 0)%Qc) by (apply Nq_neq0; destruct (node_rows t id); [contradiction|cbn; lia]).
  unfold recorded. rewrite S5. split.
  - rewrite PR. unfold split_change, reduction. rewrite left_picked, right_picked, !length_picked, !labels_picked, <- RL, <- RR. change rat with Nq. unfold share.
    pose proof rows_pos. field. auto.
  - rewrite PR. assert (PP : (0 < Nq (length (node_rows t id)) / Nq (length (train_rows a)))%Qc).
    { apply qdiv_lt_0; apply Nq_pos; [destruct (node_rows t id); [contradiction|cbn; lia]|apply rows_len]. }
    assert (Z : (0 < (- split_change M c a (node_rows t id) s v) * (Nq (length (node_rows t id)) / Nq (length (train_rows a))))%Qc) by (apply qmult_lt_0; auto; qlra).
    clear - Z. set (q := (Nq _ / Nq _)%Qc) in *. assert (E : (- split_change M c a (node_rows t id) s v * q = - (split_change M c a (node_rows t id) s v * q))%Qc) by ring. rewrite E in Z. qlra.
Qed.

Lemma root_rows : node_rows t 0 = train_rows a.
Proof. destruct (ti_root _ _ _ _ _ _ _ _ (built_tinv P M c a e t HB NE)) as (r & A & E & _). unfold node_rows. unfold node_at in A. now rewrite A. Qed.

Theorem small_accounts : leaf_impurity M c a t = (tree_impurity M c (train_labels a) + split_changes t)%Qc.
Proof.
  unfold leaf_impurity, split_changes. change rat with Nq. change total with qsum. change (fun leaf => (Nq (length (node_rows t leaf)) / Nq (length (train_rows a)) * tree_impurity M c (labels_at L (node_rows t leaf)))%Qc) with share.
  rewrite (telescope P M c a e t HB NE share recorded) by (intros id nd l r A EL ER; apply (split_share id nd l r A EL ER)).
  f_equal. unfold share. rewrite root_rows. unfold train_labels. pose proof rows_pos. field. auto.
Qed.

Lemma small_sign : (split_changes t <= 0)%Qc /\ (0 < t_splits t -> (split_changes t < 0)%Qc).
Proof.
  assert (NG : forall nd, In nd (filter is_split (t_nodes t)) -> (recorded nd < 0)%Qc).
  { intros nd I. apply filter_In in I. destruct I as [I B]. apply In_nth_error in I. destruct I as [id A]. unfold is_split in B. destruct (nd_left nd) as [l|] eqn:EL; [|discriminate].
    destruct (split_node P M c a e t HB NE id nd A ltac:(congruence)) as (l' & r & s & v & I1 & I2 & _). apply (split_share id nd l r A EL I2). }
  unfold split_changes. change total with qsum.
  assert (G : (qsum (map recorded (filter is_split (t_nodes t))) <= 0)%Qc /\ (filter is_split (t_nodes t) <> [] -> (qsum (map recorded (filter is_split (t_nodes t))) < 0)%Qc)).
  { induction (filter is_split (t_nodes t)) as [|nd l IH]; [split; [cbn; apply qle_refl|intros X; contradiction]|].
    destruct IH as [IH1 _]; [intros; apply NG; now right|]. pose proof (NG nd (or_introl eq_refl)). cbn [map qsum]. split; intros; qlra. }
  destruct G as [G1 G2]. split; auto. intros SP. apply G2. intros Z.
  pose proof (built_tinv P M c a e t HB NE) as T. destruct (ti_splits _ _ _ _ _ _ _ _ T) as [LE NO].
  destruct (ti_root _ _ _ _ _ _ _ _ T) as (r & A & _). assert (HR : is_split r = false).
  { destruct (is_split r) eqn:Q; auto. assert (In r (filter is_split (t_nodes t))) by (apply filter_In; split; auto; eapply nth_error_In; exact A). rewrite Z in H. contradiction. }
  destruct (nth_error (t_nodes t) 1) as [n1|] eqn:A1; [|apply nth_error_None in A1; lia].
  destruct (ti_parent _ _ _ _ _ _ _ _ T 1 n1 A1 ltac:(lia)) as (p & pn & _ & LT & B & O). assert (p = 0) by lia. subst p. unfold node_at in *. assert (pn = r) by congruence. subst pn.
  unfold is_split in HR. destruct (nd_left r) eqn:EL; [discriminate|]. destruct (ti_leaf _ _ _ _ _ _ _ _ T _ _ A EL) as [X _]. destruct O; congruence.
Qed.

Theorem small_training ps t' : tc_class c = false -> tree_predict_batch c t (train_points a) = Ok (ps, t') ->
  (sq_error (train_labels a) (map number_of ps) = rat (length (train_rows a)) * (variance (train_labels a) + split_changes t))%Qc.
Proof.
  intros IC H. assert (TV : tree_impurity M c = variance) by (pose proof (tr_crit _ _ _ TR) as TC; unfold tree_impurity; rewrite IC in *; destruct TC as [-> | ->]; reflexivity). pose proof small_accounts as IA. rewrite TV in IA. rewrite <- IA. rewrite (leaf_errors P M c a e t HB NE _ _ IC H).
  unfold leaf_impurity. change rat with Nq. change total with qsum. rewrite <- qsum_map_scal. f_equal. apply map_ext_in. intros leaf IL. rewrite TV. unfold variance. change rat with Nq. change total with qsum. change mean with qmean.
  destruct (fitted_partition P M c a e t HB NE) as (_ & _ & NN & _). assert (NI : (Nq (length (node_rows t leaf)) <> 0)%Qc) by (apply Nq_neq0; specialize (NN leaf IL); destruct (node_rows t leaf); [contradiction|cbn; lia]).
  assert (LN : length (labels_at L (node_rows t leaf)) = length (node_rows t leaf)) by (unfold labels_at; apply map_length). rewrite LN. pose proof rows_pos. field. auto.
Qed.

End Small.

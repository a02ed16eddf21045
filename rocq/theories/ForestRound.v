(** Rounding towards zero of class labels and of the numbers of rows and columns per tree. *)
From Coq Require Import List Arith Bool ZArith QArith Qcanon Lia.
From Verif Require Import Base Num Rng Histogram Utils Criteria Solvers Tree Forest Spec SolverSpec TreeSpec ForestSpec NumFacts ListFacts TreeFacts ForestFacts ForestThms ForestDraws ForestMore ForestOob ForestRun.
Import ListNotations.
Local Open Scope nat_scope.

Lemma floor_spec q : (Zq (qfloor q) <= q)%Qc /\ (q < Zq (qfloor q) + 1)%Qc.
Proof.
  split; [apply qfloor_le; lia|]. apply qnot_le. intros K. rewrite <- Zq_1, <- Zq_plus in K. apply qfloor_le in K. lia.
Qed.
Lemma ztrunc_spec q : towards_zero q (ztrunc q).
Proof.
  unfold ztrunc, towards_zero. destruct (qle 0 q) eqn:E.
  - apply qle_spec in E. split; intros H; [apply floor_spec|exfalso; qlra].
  - assert (L : (q < 0)%Qc) by (apply qnot_le; intros K; apply qle_spec in K; congruence). split; intros H; [exfalso; qlra|].
    rewrite Zq_opp. destruct (floor_spec (- q)%Qc). split; qlra.
Qed.
Lemma trunc_ztrunc q : trunc q = Zq (ztrunc q).
Proof. unfold trunc, ztrunc. destruct (qle 0 q); reflexivity. Qed.
Lemma towards_zero_unique q n m : towards_zero q n -> towards_zero q m -> n = m.
Proof.
  intros [A1 A2] [B1 B2]. destruct (qle 0 q) eqn:E.
  - apply qle_spec in E. destruct (A1 E), (B1 E). apply Z.le_antisymm; apply Z.lt_succ_r, Zq_lt; rewrite <- Z.add_1_r, Zq_plus, Zq_1; qlra.
  - assert (L : (q < 0)%Qc) by (apply qnot_le; intros K; apply qle_spec in K; congruence). destruct (A2 L), (B2 L).
    apply Z.le_antisymm; apply Z.lt_succ_r, Zq_lt; rewrite <- Z.add_1_r, Zq_plus, Zq_1; qlra.
Qed.
Lemma trunc_spec q : exists n, trunc q = Zq n /\ towards_zero q n /\ forall m, towards_zero q m -> m = n.
Proof. exists (ztrunc q). split; [apply trunc_ztrunc|]. split; [apply ztrunc_spec|]. intros m H. exact (towards_zero_unique q m _ H (ztrunc_spec q)). Qed.

Lemma labels_truncated M P c f0 arg h0 e0 f1 h1 e1 f r la r0 la0 : forest_fit M P c f0 arg h0 e0 = Ok (f1, h1, e1) -> used c h1 f1 f -> fc_boosting c = false -> fc_class c = true ->
  f_org f = Some r -> nth_error h1 r = Some la -> fit_ref f0 arg = Some r0 -> nth_error h0 r0 = Some la0 ->
  length (la_vals la) = length (la_vals la0) /\
  forall i y, nth_error (la_vals la0) i = Some y -> exists n, nth_error (la_vals la) i = Some (Zq n) /\ towards_zero y n.
Proof.
  intros H U B C R L R0 L0. pose proof (labels_compared _ _ _ _ _ _ _ _ _ _ _ _ _ H U B R L) as E. unfold fit_labels in E. rewrite R0, L0, C in E. injection E as <-.
  split; [now rewrite map_length|]. intros i y Y. exists (ztrunc y). split; [|apply ztrunc_spec]. rewrite <- trunc_ztrunc. now apply map_nth_error.
Qed.

Lemma sizes_truncated M P c f arg h e f1 h1 e1 data : forest_fit M P c f arg h e = Ok (f1, h1, e1) -> fit_data f arg = Some data -> ((fc_alpha_N c < 1)%Qc \/ (fc_alpha_F c < 1)%Qc) ->
  forall tc t, In (tc, t) (f_trees f1) -> exists a r0, nth_error data 0 = Some r0 /\ grown P M tc a t /\ ta_data a = data /\
    towards_zero (Nq (length r0) * fc_alpha_F c) (Z.of_nat (length (train_feats a))) /\
    (fc_bootstrap c = false -> towards_zero (Nq (length data) * fc_alpha_N c) (Z.of_nat (length (train_rows a)))).
Proof.
  intros H D A tc t I. destruct (tree_draws _ _ _ _ _ _ _ _ _ _ _ H D tc t I) as [a [r0 [E0 [G [DA S]]]]]. exists a, r0. repeat (split; [assumption|]).
  assert (Q : qlt (fc_alpha_N c) 1%Qc || qlt (fc_alpha_F c) 1%Qc = true). { apply orb_true_iff. destruct A as [A|A]; [left|right]; now apply qlt_spec. }
  destruct S as [pool [_ [_ [LP [RP [_ [_ LF]]]]]]]. unfold rows_per_tree in LP. unfold feats_per_tree in LF. rewrite Q in LP, LF. split.
  - rewrite LF. apply ztrunc_spec.
  - intros B. rewrite B in RP. subst pool. rewrite LP. apply ztrunc_spec.
Qed.

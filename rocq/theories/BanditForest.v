(** What a forest of bandit trees costs. *)
From Coq Require Import List Arith Bool ZArith QArith Qcanon Lia.
From Verif Require Import Base Num Rng Histogram Utils Criteria Solvers Tree Forest Spec SolverSpec TreeSpec ForestSpec ListFacts NumFacts TreeFacts TreeThms TreeTotal TreeMore ForestFacts ForestMore ForestDraws ForestTotal ForestRepro ForestRun FBudgetThms MabLoop BanditSpec BanditThms.
Import ListNotations.
Local Open Scope nat_scope.

(** Every tree of a fitted forest solves a well-formed problem over the forest's table. *)
Lemma forest_problems M P c f arg h e f' h' e' data W : forest_trainable c f arg h data W -> forest_fit M P c f arg h e = Ok (f', h', e') ->
  forall tc t, In (tc, t) (f_trees f') -> exists a e0 t0, trainable tc a W /\ built P M tc a e0 t0 /\ warmed tc t0 t /\ ta_data a = data /\ length (train_feats a) <= W /\
    (forall i, In i (train_rows a) -> i < length data).
Proof.
  intros T H. destruct (ft_labels _ _ _ _ _ _ T) as (r & n & la & lb & R1 & R2 & R3 & _).
  destruct (forest_setup c f arg h data W la 0 T (ex_intro _ r (conj R1 R3))) as (f1 & h1 & org & new & SU). rewrite (su_run _ _ _ _ _ _ _ _ _ _ _ _ SU) in H.
  apply rbind_ok in H. destruct H as [s [E H]]. apply ok_inv in H. apply pair_equal_spec in H. destruct H as [H _]. apply pair_equal_spec in H. destruct H as [<- _].
  set (good := fun s : fstate => forall tc t, In (tc, t) (f_trees (fs_f s)) -> exists a e0 t0, trainable tc a W /\ built P M tc a e0 t0 /\ warmed tc t0 t /\ ta_data a = data /\ length (train_feats a) <= W /\
    (forall i, In i (train_rows a) -> i < length data)).
  assert (G : ready c data f1 h1 new s /\ good s).
  { refine (foldM_inv _ (fun s => ready c data f1 h1 new s /\ good s) _ _ _ _ _ E).
    - split; [|].
      + split; [|split; [|split]]; auto; try apply SU. cbn [fs_f]. exists (f_trees f1), (f_budget f1), (f_queries f1), (f_oob f1), (f_gen f1). now destruct f1.
      + intros tc t I. cbn [fs_f] in I. destruct (su_pre _ _ _ _ _ _ _ _ _ _ _ _ SU) as (x1 & x2 & x3 & x4 & _ & _ & _ & _ & EF). rewrite EF in I. destruct I.
    - intros i z z' _ [RY GD] HS. split; [eapply ready_step; eauto; exact (ft_boost _ _ _ _ _ _ T)|].
      destruct (fs_stop z) eqn:ST; [unfold fit_tree in HS; rewrite ST in HS; apply ok_inv in HS; now subst z'|].
      destruct (step_shape M P c data W z i z' ST HS) as (rows & feats & gen1 & SD & [[_ ->]|(_ & orgr & newr & rows2 & gen2 & seed & np' & lc & t0 & e0 & t1 & e1 & B1 & B2 & B3 & B4 & B5 & B6)]); [exact GD|].
      cbv zeta in B6. destruct B6 as (N1 & N2 & [[_ ->]|(_ & t2 & h2 & B7 & ->)]); [exact GD|].
      intros tc t J. cbn [fs_f upd_forest f_trees] in J. apply in_app_or in J. destruct J as [J|[J|[]]]; [now apply GD|]. injection J as <- <-.
      pose proof (ready_good c data W 0 f arg h f1 h1 org new _ (ft_rows _ _ _ _ _ _ T) (ft_cols _ _ _ _ _ _ T) (ft_boost _ _ _ _ _ _ T) (ft_draws _ _ _ _ _ _ T) SU z rows feats gen1 rows2 gen2 orgr newr lc seed RY SD B1 B2 B3 B5) as (_ & TR & _).
      destruct (subset_draw_spec _ _ _ _ _ _ _ SD) as [D1 [D2 _]].
      eexists _, _, t1. split; [exact TR|]. split; [unfold built; eauto|]. ands; auto.
      + destruct (fc_boosting c); [eapply boost_warmed; eauto|]. apply ok_pair_inv in B7. destruct B7 as [<- _]. apply warmed_refl.
      + cbn. destruct (subset_total c (length data) W (f_gen (fs_f z)) (ft_rows _ _ _ _ _ _ T) (ft_cols _ _ _ _ _ _ T) (ft_draws _ _ _ _ _ _ T)) as (rows' & feats' & gen1' & SD' & _ & LF & _).
        rewrite SD in SD'. apply ok_pair_inv in SD'. destruct SD' as [SD' _]. apply pair_equal_spec in SD'. destruct SD' as [_ <-]. unfold feats_per_tree in LF. pose proof (ft_draws _ _ _ _ _ _ T) as DR.
        destruct (qlt (fc_alpha_N c) 1%Qc || qlt (fc_alpha_F c) 1%Qc); [specialize (DR eq_refl)|]; lia.
      + intros j J. cbn in J. apply D1. destruct (fc_bootstrap c); [eapply choice_repl_in; eauto|]. apply ok_pair_inv in B3. destruct B3 as [<- _]. exact J. }
  exact (proj2 G).
Qed.

Lemma forest_queries M P c f arg h e f' h' e' : forest_fit M P c f arg h e = Ok (f', h', e') ->
  f_queries f' = f_queries f + list_sum (map (fun ct => t_queries (snd ct)) (f_trees f')) /\ length (f_trees f') <= fc_n c.
Proof.
  intros H. destruct (f_budget f) as [b|] eqn:B.
  - destruct (forest_budget _ _ _ _ _ _ _ _ _ _ b H B) as (Q1 & _ & Q2 & _). auto.
  - destruct (forest_no_budget _ _ _ _ _ _ _ _ _ _ H B) as (Q1 & _ & Q2). split; auto. lia.
Qed.
Lemma sum_bound {A} (g : A -> nat) q l : (forall x, In x l -> g x <= q) -> list_sum (map g l) <= length l * q.
Proof. induction l as [|x l IH]; intros H; [cbn; lia|]. cbn [map length]. rewrite list_sum_cons. pose proof (H x (or_introl eq_refl)). specialize (IH (fun y I => H y (or_intror I))). lia. Qed.


Lemma forest_tree_bound M P c f arg h e f' h' e' data W : forest_trainable c f arg h data W -> forest_fit M P c f arg h e = Ok (f', h', e') ->
  fc_solver c = MAB -> fc_class c = true -> fc_bin c = LINEAR -> 1 <= fc_batch c -> fc_log_split c = true \/ 2 <= fc_nb c ->
  forall tc t, In (tc, t) (f_trees f') -> exists a e0 t0, trainable tc a W /\ built P M tc a e0 t0 /\ t_queries t = t_queries t0 /\ length (train_feats a) <= W /\ tc_max_depth tc = fc_max_depth c /\ tc_max_leaves tc = fc_max_leaves c /\
    tc_batch tc = fc_batch c /\ tc_fsub tc = fc_fsub c /\ tc_solver tc = MAB /\ tc_class tc = true /\ tc_bin tc = LINEAR /\ bins_ok tc /\ ranges_cover tc a.
Proof.
  intros T H SV IC BT B1 BO tc t I. destruct (forest_problems _ _ _ _ _ _ _ _ _ _ _ _ T H tc t I) as (a & e0 & t0 & TR & BU & WA & DA & LF & RI).
  destruct (tree_settings _ _ _ _ _ _ _ _ _ _ H tc t I) as (S1 & S2 & S3 & S4 & S5 & S6 & S7 & S8 & S9 & S10 & S11 & S12 & S13 & S14 & S15 & S16).
  exists a, e0, t0. ands; auto; try congruence.
  - eapply warmed_queries; eauto.
  - unfold bins_ok. rewrite S7, BT, S11, S8. exact BO.
  - unfold ranges_cover. rewrite S16. destruct (fc_precomp_minmax c) eqn:PM.
    + destruct (nth_error data 0) as [r0|] eqn:E0; [|apply nth_error_None in E0; pose proof (ft_rows _ _ _ _ _ _ T); lia].
      destruct (forest_ranges _ _ _ _ _ _ _ _ _ _ _ _ H (ft_data _ _ _ _ _ _ T) E0 PM) as (mn & mx & -> & L1 & L2 & G). intros i s hi Ii Is EH.
      assert (SL : s < length mn) by (rewrite L1, <- L2; apply nth_error_Some; congruence). apply nth_error_Some in SL. destruct (nth_error mn s) as [lo|] eqn:EL; [|contradiction].
      destruct (G s lo hi EL EH) as [_ [_ GR]]. apply GR. unfold feature_values, cell. rewrite DA. apply in_map_iff. exists (nth i data []). split; auto. apply nth_In. now apply RI.
    + rewrite (fitted_minmax _ _ _ _ _ _ _ _ _ _ H PM), (ft_minmax _ _ _ _ _ _ T PM). exact Logic.I.
Qed.

Theorem forest_bandit_bound M P c f arg h e f' h' e' data W : forest_trainable c f arg h data W -> forest_fit M P c f arg h e = Ok (f', h', e') ->
  fc_solver c = MAB -> fc_class c = true -> fc_bin c = LINEAR -> 1 <= fc_batch c -> fc_log_split c = true \/ 2 <= fc_nb c ->
  (forall z, fc_max_depth c = DFin z -> f_queries f' <= f_queries f + fc_n c * (fc_batch c * most_feats (fc_fsub c) W * (2 ^ Z.to_nat z - 1))) /\
  (forall m, fc_max_leaves c = Some m -> f_queries f' <= f_queries f + fc_n c * (fc_batch c * most_feats (fc_fsub c) W * (2 * m - 1))).
Proof.
  intros T H SV IC BT B1 BO. destruct (forest_queries _ _ _ _ _ _ _ _ _ _ H) as [-> LN].
  assert (G : forall q, (forall tc t, In (tc, t) (f_trees f') -> t_queries t <= q) -> f_queries f + list_sum (map (fun ct => t_queries (snd ct)) (f_trees f')) <= f_queries f + fc_n c * q).
  { intros q HQ. apply Nat.add_le_mono_l. etransitivity; [apply (sum_bound _ q); intros [tc t] I; exact (HQ tc t I)|]. now apply Nat.mul_le_mono_r. }
  assert (B : forall tc t, In (tc, t) (f_trees f') -> (forall z, fc_max_depth c = DFin z -> t_queries t <= fc_batch c * most_feats (fc_fsub c) W * (2 ^ Z.to_nat z - 1)) /\ (forall m, fc_max_leaves c = Some m -> t_queries t <= fc_batch c * most_feats (fc_fsub c) W * (2 * m - 1))).
  { intros tc t I. destruct (forest_tree_bound _ _ _ _ _ _ _ _ _ _ _ _ T H SV IC BT B1 BO tc t I) as (a & e0 & t0 & TR & BU & -> & LF & MD & ML & BA & FU & S1 & S2 & S3 & S4 & S5).
    destruct (bandit_tree_bound P M tc a e0 t0 W TR BU S1 S2 S3 ltac:(lia) S4 S5) as (_ & X1 & X2). rewrite <- BA, <- FU. split.
    - intros z Z. etransitivity; [apply (X1 z); congruence|]. apply Nat.mul_le_mono_r. apply Nat.mul_le_mono_l. now apply most_feats_mono.
    - intros m Z. etransitivity; [apply (X2 m); congruence|]. apply Nat.mul_le_mono_r. apply Nat.mul_le_mono_l. now apply most_feats_mono. }
  split; [intros z Z|intros m Z]; apply G; intros tc t I; now apply (B tc t I).
Qed.

(** The settings, rows and columns of the trees of a fitted forest. *)
From Coq Require Import List Arith Bool ZArith QArith Qcanon Lia Permutation.
From Verif Require Import Base Num Rng Histogram Utils Criteria Solvers Tree Forest Spec SolverSpec TreeSpec ForestSpec NumFacts ListFacts HistAdd MakeHist DrawFacts TreeFacts TreeThms ForestFacts.
Import ListNotations.
Local Open Scope nat_scope.

Lemma alpha_spec N al g l g' : alpha_choice N al g = Ok (l, g') -> NoDup l /\ (forall i, In i l -> i < N) /\ Z.of_nat (length l) = ztrunc (Nq N * al)%Qc.
Proof.
  unfold alpha_choice. destruct (_ <? 0)%Z eqn:Z1; [discriminate|]. apply Z.ltb_ge in Z1. intros H. apply choice_norepl_in in H. destruct H as [L [I ND]].
  split; [apply ND, seq_NoDup|]. split; [intros i J; now apply arange_in, I|]. rewrite L. lia.
Qed.

Lemma subset_sampled c N F gen rows feats gen' : subset_draw c N F gen = Ok (rows, feats, gen') ->
  (NoDup rows /\ (forall i, In i rows -> i < N) /\ Z.of_nat (length rows) = rows_per_tree c N) /\
  (NoDup feats /\ (forall i, In i feats -> i < F) /\ Z.of_nat (length feats) = feats_per_tree c F).
Proof.
  unfold subset_draw, rows_per_tree, feats_per_tree. destruct (qlt (fc_alpha_N c) 1%Qc || qlt (fc_alpha_F c) 1%Qc).
  - intros H. apply rbind_ok in H. destruct H as [[l1 g1] [E1 H]]. apply rbind_ok in H. destruct H as [[l2 g2] [E2 H]]. cbn [fst snd] in *.
    injection H as <- <- <-. split; eapply alpha_spec; eauto.
  - intros H. injection H as <- <- <-. unfold arange. rewrite !seq_length. ands; auto using seq_NoDup; intros i I; apply in_seq in I; lia.
Qed.

Lemma boost_grown c i tc t0 data rows newr h t h' : boost c i tc t0 data rows newr h = Ok (t, h') -> warmed tc t0 t.
Proof. apply boost_warmed. Qed.

Lemma fit_tree_draw M P c data F s i s' : fit_tree M P c data F s i = Ok s' ->
  (f_trees (fs_f s') = f_trees (fs_f s) \/
   exists tc t a, f_trees (fs_f s') = f_trees (fs_f s) ++ [(tc, t)] /\ tc = tree_cfg c (f_classes (fs_f s)) (f_minmax (fs_f s)) /\
     grown P M tc a t /\ ta_data a = data /\ sampled c (length data) F (train_rows a) (train_feats a)) /\
  f_classes (fs_f s') = f_classes (fs_f s) /\ f_minmax (fs_f s') = f_minmax (fs_f s).
Proof.
  intros H. unfold fit_tree in H. destruct (fs_stop s); [injection H as <-; auto|]. apply rbind_ok in H. destruct H as [[[rows feats] gen1] [ED H]].
  destruct (match f_budget (fs_f s) with Some b => (b <=? 0)%Z | None => false end); [injection H as <-; auto|].
  apply rbind_ok in H. destruct H as [orgr [EO H]]. apply rbind_ok in H. destruct H as [newr [EN H]]. apply rbind_ok in H. destruct H as [[rows2 gen2] [EB H]].
  destruct (draw (e_np (fs_e s))) as [seed np'] eqn:DR. apply rbind_ok in H. destruct H as [la [EL H]].
  apply rbind_ok in H. destruct H as [[t1 e1] [E1 H]]. apply rbind_ok in H. destruct H as [[t0 e2] [E2 H]]. cbn [fst snd] in E1, E2.
  destruct (negb (keep_tree (f_budget (fs_f s)) (t_queries t0))); [injection H as <-; auto|].
  apply rbind_ok in H. destruct H as [[t h] [ET H]]. apply rbind_ok in H. destruct H as [u [EG H]]. injection H as <-. cbn [fs_f upd_forest f_trees f_classes f_minmax].
  split; [|auto]. right.
  set (a := {| ta_data := data; ta_labels := la_vals la; ta_budget := f_budget (fs_f s); ta_dd := f_dd (fs_f s); ta_seed := seed; ta_idcs := Some rows2; ta_feats := Some feats |}) in *.
  eexists _, t, a. split; [reflexivity|]. split; [reflexivity|]. split; [|split; [reflexivity|]].
  - exists (set_np (fs_e s) np'), t0. split; [exists t1, e1, e2; auto|]. destruct (fc_boosting c).
    + eapply boost_warmed; eauto.
    + apply ok_pair_inv in ET. destruct ET as [<- _]. apply warmed_refl.
  - destruct (subset_sampled _ _ _ _ _ _ _ ED) as [[A1 [A2 A3]] [B1 [B2 B3]]]. exists rows. ands; auto. change (train_rows a) with rows2.
    destruct (fc_bootstrap c).
    + apply choice_repl_in in EB. exact EB.
    + apply ok_pair_inv in EB. destruct EB as [<- _]. reflexivity.
Qed.

Lemma tree_draws M P c f arg h e f1 h1 e1 data : forest_fit M P c f arg h e = Ok (f1, h1, e1) -> fit_data f arg = Some data ->
  forall tc t, In (tc, t) (f_trees f1) -> exists a r0, nth_error data 0 = Some r0 /\ grown P M tc a t /\ ta_data a = data /\
    sampled c (length data) (length r0) (train_rows a) (train_feats a).
Proof.
  intros H D. destruct (forest_fit_spec _ _ _ _ _ _ _ _ _ _ H) as (data' & F & g1 & hh & s & SD & -> & -> & _ & L).
  pose proof (sd_data _ _ _ _ _ _ _ _ SD) as D'. rewrite D in D'. injection D' as <-. destruct (sd_F _ _ _ _ _ _ _ _ SD) as [r0 [E0 <-]].
  revert L. apply (foldM_inv (fit_tree M P c data (length r0)) (fun s => forall tc t, In (tc, t) (f_trees (fs_f s)) -> exists a r0, nth_error data 0 = Some r0 /\ grown P M tc a t /\ ta_data a = data /\ sampled c (length data) (length r0) (train_rows a) (train_feats a))).
  - cbn. destruct (sd_f1 _ _ _ _ _ _ _ _ SD) as [_ [-> _]]. intros tc t [].
  - intros i s1 s2 _ IH E tc t I. destruct (fit_tree_draw _ _ _ _ _ _ _ _ E) as [[K|(tc' & t' & a & K & _ & G & DA & SA)] _]; rewrite K in I; auto.
    apply in_app_iff in I. destruct I as [I|[I|[]]]; auto. injection I as <- <-. exists a, r0. auto.
Qed.

Lemma tree_settings M P c f arg h e f1 h1 e1 : forest_fit M P c f arg h e = Ok (f1, h1, e1) ->
  forall tc t, In (tc, t) (f_trees f1) -> honoured c f1 tc.
Proof.
  intros H. destruct (forest_fit_spec _ _ _ _ _ _ _ _ _ _ H) as (data' & F & g1 & hh & s & SD & -> & -> & _ & L).
  assert (K : (forall tc t, In (tc, t) (f_trees (fs_f s)) -> tc = tree_cfg c (f_classes g1) (f_minmax g1)) /\ f_classes (fs_f s) = f_classes g1 /\ f_minmax (fs_f s) = f_minmax g1).
  { revert L. apply (foldM_inv (fit_tree M P c data' F) (fun s => (forall tc t, In (tc, t) (f_trees (fs_f s)) -> tc = tree_cfg c (f_classes g1) (f_minmax g1)) /\ f_classes (fs_f s) = f_classes g1 /\ f_minmax (fs_f s) = f_minmax g1)).
    - cbn. destruct (sd_f1 _ _ _ _ _ _ _ _ SD) as [_ [-> _]]. split; [intros tc t []|auto].
    - intros i s1 s2 _ [IH [C1 C2]] E. destruct (fit_tree_draw _ _ _ _ _ _ _ _ E) as [K [D1 D2]]. split; [|split; congruence].
      intros tc t I. destruct K as [K|(tc' & t' & a & K & E' & _)]; rewrite K in I; [eauto|]. apply in_app_iff in I. destruct I as [I|[I|[]]]; [eauto|]. injection I as <- <-. congruence. }
  destruct K as [K [C1 C2]]. intros tc t I. rewrite (K tc t I). unfold honoured. rewrite C1, C2. cbn. repeat split; reflexivity.
Qed.

Lemma forest_ranges M P c f arg h e f1 h1 e1 data r0 : forest_fit M P c f arg h e = Ok (f1, h1, e1) -> fit_data f arg = Some data -> nth_error data 0 = Some r0 ->
  fc_precomp_minmax c = true ->
  exists mn mx, f_minmax f1 = Some (mn, mx) /\ length mn = length r0 /\ length mx = length r0 /\
    forall j lo hi, nth_error mn j = Some lo -> nth_error mx j = Some hi ->
      least (SolverSpec.feature_values data j) lo /\ greatest (SolverSpec.feature_values data j) hi.
Proof.
  intros H D E0 PC. destruct (forest_fit_spec _ _ _ _ _ _ _ _ _ _ H) as (data' & F & g1 & hh & s & SD & E1 & E2 & _ & L).
  assert (K : f_minmax f1 = f_minmax g1).
  { rewrite E1. revert L. apply (foldM_inv (fit_tree M P c data' F) (fun s => f_minmax (fs_f s) = f_minmax g1)); [reflexivity|].
    intros i s1 s2 _ IH E. destruct (fit_tree_draw _ _ _ _ _ _ _ _ E) as [_ [_ D2]]. congruence. }
  clear L E1 E2. rewrite K. clear K. pose proof (sd_data _ _ _ _ _ _ _ _ SD) as D'. rewrite D in D'. injection D' as <-. destruct (sd_F _ _ _ _ _ _ _ _ SD) as [r1 [E1 EF]].
  rewrite E0 in E1. injection E1 as <-. destruct (sd_pre _ _ _ _ _ _ _ _ SD PC) as [[mn mx] [-> CM]]. exists mn, mx. split; auto.
  unfold col_minmax in CM. apply rbind_ok in CM. destruct CM as [a [A1 CM]]. apply rbind_ok in CM. destruct CM as [b [A2 CM]]. apply ok_pair_inv in CM. destruct CM as [<- <-].
  pose proof (mapM_length _ _ _ A1) as L1. pose proof (mapM_length _ _ _ A2) as L2. rewrite seq_length in L1, L2. split; [congruence|]. split; [congruence|]. intros j x y X Y.
  destruct (mapM_nth _ _ _ _ _ A1 X) as (k & K1 & K2). destruct (mapM_nth _ _ _ _ _ A2 Y) as (k' & K1' & K2').
  assert (FL : j < F) by (rewrite <- L1; apply nth_error_Some; congruence). assert (KF : forall k, nth_error (seq 0 F) j = Some k -> k = j). { intros k0 Q. apply nth_error_nth with (d := 0) in Q. rewrite seq_nth in Q by auto. auto. }
  apply KF in K1. apply KF in K1'. subst k k'. apply rbind_ok in K2. destruct K2 as [v [C1 M1]]. rewrite C1 in K2'. cbn [rbind] in K2'. apply col_ok in C1. unfold SolverSpec.feature_values.
  rewrite C1 in *. split; [now apply list_min_spec|now apply list_max_spec].
Qed.

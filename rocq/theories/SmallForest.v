(** The bandit search in the trees of a forest. *)
From Coq Require Import List Arith Bool ZArith QArith Qcanon Lia.
From Verif Require Import Base Num Rng Histogram Utils Criteria Solvers Tree Forest Spec SolverSpec TreeSpec TrainSpec ForestSpec ListFacts NumFacts TreeFacts TreeThms TreeTotal TreeMore ForestFacts ForestMore ForestDraws ForestTotal ForestRepro ForestRun FBudgetThms MabLoop BanditSpec BanditThms BanditForest BatchSpec BatchTree SmallSpec SmallTree SmallTrain.
Import ListNotations.
Local Open Scope nat_scope.

Lemma setup_labels c f arg h data W m f1 h1 org new L lc : fit_setup c f arg h data W m f1 h1 org new L -> nth_error h1 org = Some lc -> fit_labels c f arg h = Some (la_vals lc).
Proof.
  intros SU HL. destruct (su_pre _ _ _ _ _ _ _ _ _ _ _ _ SU) as (r & n & dd & mm & E1 & E2 & _).
  assert (R : fit_ref f arg = Some r). { unfold fit_ref. destruct arg as [[d|] [q|]]; try discriminate; apply ok_inv in E1; cbn in *; congruence. }
  unfold fit_labels. rewrite R. destruct (fc_class c).
  - apply rbind_ok in E2. destruct E2 as [[h2 o] [A E2]]. apply rbind_ok in E2. destruct E2 as [[h3 o'] [B E2]]. cbn [fst snd] in *. apply ok_inv in E2. injection E2 as <- <- <-.
    unfold astype_int in A, B. apply rbind_ok in A. destruct A as [la [A1 A]]. apply rbind_ok in B. destruct B as [lb [B1 B]]. apply nth_res_ok in A1. apply ok_inv in A. injection A as <- <-. apply ok_inv in B. injection B as <- <-.
    rewrite A1. rewrite nth_error_app1 in HL by (rewrite app_length; cbn; lia). rewrite nth_error_app2, Nat.sub_diag in HL by lia. injection HL as <-. reflexivity.
  - apply ok_inv in E2. injection E2 as <- <- <-. now rewrite HL.
Qed.

Lemma forest_tasks M P c f arg h e f' h' e' data W : forest_trainable c f arg h data W -> forest_fit M P c f arg h e = Ok (f', h', e') ->
  forall tc t, In (tc, t) (f_trees f') -> exists a e0 t0, trainable tc a W /\ built P M tc a e0 t0 /\ warmed tc t0 t /\ tree_problem c f arg h data W a.
Proof.
  intros T H. destruct (ft_labels _ _ _ _ _ _ T) as (r & n & la & lb & R1 & R2 & R3 & _).
  destruct (forest_setup c f arg h data W la 0 T (ex_intro _ r (conj R1 R3))) as (f1 & h1 & org & new & SU). rewrite (su_run _ _ _ _ _ _ _ _ _ _ _ _ SU) in H.
  apply rbind_ok in H. destruct H as [s [E H]]. apply ok_inv in H. apply pair_equal_spec in H. destruct H as [H _]. apply pair_equal_spec in H. destruct H as [<- _].
  destruct (su_pre _ _ _ _ _ _ _ _ _ _ _ _ SU) as (x1 & x2 & x3 & x4 & _ & _ & _ & _ & EF).
  set (good := fun s : fstate => (f_budget f = None -> f_budget (fs_f s) = None) /\ forall tc t, In (tc, t) (f_trees (fs_f s)) -> exists a e0 t0, trainable tc a W /\ built P M tc a e0 t0 /\ warmed tc t0 t /\ tree_problem c f arg h data W a).
  assert (G : ready c data f1 h1 new s /\ good s).
  { refine (foldM_inv _ (fun s => ready c data f1 h1 new s /\ good s) _ _ _ _ _ E).
    - split; [|].
      + split; [|split; [|split]]; auto; try apply SU. cbn [fs_f]. exists (f_trees f1), (f_budget f1), (f_queries f1), (f_oob f1), (f_gen f1). now destruct f1.
      + split; [cbn [fs_f]; rewrite EF; auto|]. intros tc t I. cbn [fs_f] in I. rewrite EF in I. destruct I.
    - intros i z z' _ [RY [BG GD]] HS. split; [eapply ready_step; eauto; exact (ft_boost _ _ _ _ _ _ T)|].
      destruct (fs_stop z) eqn:ST; [unfold fit_tree in HS; rewrite ST in HS; apply ok_inv in HS; subst z'; now split|].
      destruct (step_shape M P c data W z i z' ST HS) as (rows & feats & gen1 & SD & [[_ ->]|(_ & orgr & newr & rows2 & gen2 & seed & np' & lc & t0 & e0 & t1 & e1 & B1 & B2 & B3 & B4 & B5 & B6)]); [split; [exact BG|exact GD]|].
      cbv zeta in B6. destruct B6 as (N1 & N2 & [[_ ->]|(_ & t2 & h2 & B7 & ->)]); [split; [exact BG|exact GD]|].
      split; [intros Z; cbn [fs_f upd_forest f_budget]; rewrite (BG Z); reflexivity|].
      intros tc t J. cbn [fs_f upd_forest f_trees] in J. apply in_app_or in J. destruct J as [J|[J|[]]]; [now apply GD|]. injection J as <- <-.
      pose proof (ready_good c data W 0 f arg h f1 h1 org new _ (ft_rows _ _ _ _ _ _ T) (ft_cols _ _ _ _ _ _ T) (ft_boost _ _ _ _ _ _ T) (ft_draws _ _ _ _ _ _ T) SU z rows feats gen1 rows2 gen2 orgr newr lc seed RY SD B1 B2 B3 B5) as (_ & TR & _).
      eexists _, _, t1. split; [exact TR|]. split; [unfold built; eauto|]. split.
      { destruct (fc_boosting c); [eapply boost_warmed; eauto|]. apply ok_pair_inv in B7. destruct B7 as [<- _]. apply warmed_refl. }
      split; [reflexivity|]. split; [|split; [exact BG|]].
      + destruct (subset_sampled _ _ _ _ _ _ _ SD) as [[A1 [A2 A3]] [C1 [C2 C3]]]. exists rows. ands; auto. unfold train_rows; cbn [ta_idcs].
        destruct (fc_bootstrap c); [now apply choice_repl_in in B3|]. apply ok_pair_inv in B3. destruct B3 as [<- _]. reflexivity.
      + intros Z. cbn [ta_labels]. destruct RY as ((ts & b & q & o & g & FR) & HH & _). eapply setup_labels; [exact SU|].
        assert (O : orgr = org) by (pose proof (su_org _ _ _ _ _ _ _ _ _ _ _ _ SU) as Q; rewrite FR in B1; cbn in B1; congruence). subst orgr.
        rewrite Z, (HH Z) in B5. destruct (fc_class c); now apply nth_res_ok in B5. }
  exact (proj2 (proj2 G)).
Qed.

Lemma sampled_few c N F rows feats : sampled c N F rows feats -> length rows <= N.
Proof.
  intros (pool & ND & IN & _ & R & _). destruct (fc_bootstrap c); [destruct R; lia|]. subst rows.
  rewrite <- (seq_length N 0). apply NoDup_incl_length; auto. intros i I. apply in_seq. specialize (IN i I). lia.
Qed.

Section Forest.
Context (M : math) (P : prng) (c : fcfg) (f : forest) (arg : option (list (list Qc)) * option nat) (h : heap) (e : env) (f' : forest) (h' : heap) (e' : env) (data : list (list Qc)) (W : nat).
Context (T : forest_trainable c f arg h data W) (H : forest_fit M P c f arg h e = Ok (f', h', e')) (SV : fc_solver c = MAB).

Theorem small_forest : fc_bin c = LINEAR \/ fc_bin c = RANDOM -> fc_log_split c = false -> 6 <= fc_nb c -> length data <= fc_batch c ->
  forall tc t, In (tc, t) (f_trees f') -> exists a e0 t0, trainable tc a W /\ built P M tc a e0 t0 /\ warmed tc t0 t /\ tree_problem c f arg h data W a /\
  (forall id nd, node_at t0 id nd -> nd_left nd <> None ->
    exists s v E j, nd_sf nd = Some s /\ nd_sv nd = Some v /\ nth_error (nd_feats nd) j = Some s /\ In v (E j) /\
      nd_red nd = Some (Fin (split_change M tc a (node_rows t0 id) s v * nd_prop nd)%Qc) /\ (split_change M tc a (node_rows t0 id) s v < 0)%Qc /\
      (forall j' s', nth_error (nd_feats nd) j' = Some s' -> thresholds tc a (node_rows t0 id) s' (E j')) /\
      (forall j' s' v', nth_error (nd_feats nd) j' = Some s' -> In v' (E j') ->
         (split_change M tc a (node_rows t0 id) s v <= split_change M tc a (node_rows t0 id) s' v')%Qc)) /\
  (forall id nd, f_budget f = None -> fc_max_leaves c <> Some (length (t_leaves t0)) -> In id (t_leaves t0) -> node_at t0 id nd ->
    below_depth tc (nd_depth nd) -> fc_min_split c < length (node_rows t0 id) -> varied (labels_at (ta_labels a) (node_rows t0 id)) ->
    exists E, (forall j' s', nth_error (nd_feats nd) j' = Some s' -> thresholds tc a (node_rows t0 id) s' (E j')) /\
      (forall j' s' v', nth_error (nd_feats nd) j' = Some s' -> In v' (E j') ->
         let gain := split_change M tc a (node_rows t0 id) s' v' in
         (0 <= gain)%Qc \/ (fc_min_imp c <= nd_prop nd * gain)%Qc \/
         (fc_min_imp c <= nd_prop nd * gain * (rat (length (node_rows t0 id)) / rat (length data)))%Qc)) /\
  leaf_impurity M tc a t0 = (tree_impurity M tc (train_labels a) + split_changes t0)%Qc /\
  exists ids, NoDup ids /\ (forall id, In id ids -> may_split tc a t0 id) /\
    t_queries t = list_sum (map (fun id => full_price tc a (node_rows t0 id) (node_feats t0 id)) ids) /\
    (f_budget f = None -> fc_max_leaves c <> Some (length (t_leaves t0)) -> forall id, may_split tc a t0 id -> In id ids).
Proof.
  intros NI LS NB LB tc t I. destruct (forest_tasks _ _ _ _ _ _ _ _ _ _ _ _ T H tc t I) as (a & e0 & t0 & TR & BU & WA & TP).
  destruct (tree_settings _ _ _ _ _ _ _ _ _ _ H tc t I) as (S1 & S2 & S3 & S4 & S5 & S6 & S7 & S8 & S9 & S10 & S11 & S12 & S13 & S14 & S15 & S16).
  assert (X1 : tc_solver tc = MAB) by congruence. assert (X2 : tc_bin tc <> IDENTITY) by (rewrite S7; destruct NI; congruence). assert (X4 : tc_log_split tc = false) by congruence. assert (X5 : 6 <= tc_nb tc) by (rewrite S8; auto).
  assert (X3 : bins_ok tc) by (unfold bins_ok; rewrite S7; destruct NI as [-> | ->]; right; lia).
  assert (X6 : length (train_rows a) <= tc_batch tc) by (rewrite S14; destruct TP as (_ & SA & _); apply sampled_few in SA; lia).
  exists a, e0, t0. ands; auto.
  - intros id nd A LF. exact (small_split P M tc a e0 t0 W TR BU X1 X2 X3 X4 X5 X6 id nd A LF).
  - intros id nd BN ML IL A D1 D2 D3. rewrite <- S5, <- (proj1 TP), <- (tr_len _ _ _ TR). apply (small_leaf P M tc a e0 t0 W TR BU X1 X2 X3 X4 X5 X6 id nd); auto; try congruence. now apply TP.
  - exact (small_accounts P M tc a e0 t0 W TR BU X1 X2 X3 X4 X5 X6).
  - destruct (small_queries P M tc a e0 t0 W TR BU X1 X2 X3 X4 X5 X6) as (ids & ND & MS & Q & CO). exists ids. ands; auto.
    + rewrite <- Q. eapply warmed_queries; eauto.
    + intros BN ML. apply CO; [now apply TP|congruence].
Qed.

Theorem batch_forest : fc_class c = true -> fc_bin c = LINEAR -> 1 <= fc_batch c -> fc_log_split c = true \/ 2 <= fc_nb c ->
  forall tc t, In (tc, t) (f_trees f') -> exists a e0 t0, trainable tc a W /\ built P M tc a e0 t0 /\ warmed tc t0 t /\ tree_problem c f arg h data W a /\
  forall id nd, node_at t0 id nd -> nd_left nd <> None ->
  5 < bins_at tc (node_rows t0 id) * length (filter (scanned tc a (node_rows t0 id)) (nd_feats nd)) ->
  exists J E s v j, batch_of (fc_batch c) (fc_repl c) (node_rows t0 id) J /\
    (forall j' s', nth_error (nd_feats nd) j' = Some s' -> thresholds tc a (node_rows t0 id) s' (E j')) /\
    nd_sf nd = Some s /\ nd_sv nd = Some v /\ nth_error (nd_feats nd) j = Some s /\ In v (E j) /\
    nd_red nd = Some (Fin (split_change M tc a J s v * (rat (length (node_rows t0 id)) / rat (length (train_rows a))))%Qc) /\
    (split_change M tc a J s v < 0)%Qc /\
    (forall j' s' v', nth_error (nd_feats nd) j' = Some s' -> In v' (E j') -> (split_change M tc a J s v <= split_change M tc a J s' v')%Qc).
Proof.
  intros IC BT B1 BO tc t I. destruct (forest_tasks _ _ _ _ _ _ _ _ _ _ _ _ T H tc t I) as (a & e0 & t0 & TR & BU & WA & TP).
  destruct (tree_settings _ _ _ _ _ _ _ _ _ _ H tc t I) as (S1 & S2 & S3 & S4 & S5 & S6 & S7 & S8 & S9 & S10 & S11 & S12 & S13 & S14 & S15 & S16).
  assert (BK : bins_ok tc) by (unfold bins_ok; rewrite S7, BT, S11, S8; exact BO).
  assert (RC : ranges_cover tc a).
  { unfold ranges_cover. rewrite S16. destruct (fc_precomp_minmax c) eqn:PM.
    + destruct (nth_error data 0) as [r0|] eqn:E0; [|apply nth_error_None in E0; pose proof (ft_rows _ _ _ _ _ _ T); lia].
      destruct (forest_ranges _ _ _ _ _ _ _ _ _ _ _ _ H (ft_data _ _ _ _ _ _ T) E0 PM) as (mn & mx & -> & L1 & L2 & G). intros i s hi Ii Is EH.
      assert (SL : s < length mn) by (rewrite L1, <- L2; apply nth_error_Some; congruence). apply nth_error_Some in SL. destruct (nth_error mn s) as [lo|] eqn:EL; [|contradiction].
      destruct (G s lo hi EL EH) as [_ [_ GR]]. apply GR. destruct TP as (DA & (pool & _ & PI & _ & RW & _) & _). unfold feature_values, cell. rewrite DA. apply in_map_iff. exists (nth i data []). split; auto. apply nth_In.
      apply PI. destruct (fc_bootstrap c); [now apply RW|now rewrite <- RW].
    + rewrite (fitted_minmax _ _ _ _ _ _ _ _ _ _ H PM), (ft_minmax _ _ _ _ _ _ T PM). exact Logic.I. }
  exists a, e0, t0. ands; auto. intros id nd A LF N5. rewrite <- S14, <- S10.
  apply (bandit_split P M tc a e0 t0 W TR BU id nd); auto; try congruence.
Qed.
End Forest.

(** What the comparison with scikit-learn compares. *)
From Coq Require Import List Arith Bool ZArith QArith Qcanon Lia.
From Verif Require Import Base Num Rng Histogram Utils Criteria Solvers Tree Forest Permutation Wrappers Compare Baseline Spec SolverSpec TreeSpec ForestSpec PermSpec WrapSpec CompareSpec StabSpec ReportSpec BaselineSpec.
From Verif Require Import NumFacts ListFacts HistAdd EnsThms TreeFacts ForestFacts ForestThms ForestMore ForestRepro WrapFacts WrapLife PermFacts PermMore CompareThms CompareMore StabThms ReportThms.
Import ListNotations.
Local Open Scope nat_scope.

Lemma entered_wrapper ct w : entered ct w -> ct_wrapper ct = Ok w /\ w_class w = ct_class ct /\ ~ patched w.
Proof. intros []; (split; [reflexivity|]; split; [reflexivity|]; intros [Q|[Q|[Q|Q]]]; discriminate Q). Qed.

(** ** Taking one seed apart *)
Record taken (sk : sklearn) (M : math) (P : prng) (ct : contest) (w : wrapper) (d : sets) (seed : nat) (h : heap) (e : env) (b : bout) (h' : heap) (e' : env) (o : wobj) (y yt : larr) : Prop := {
  tn_built : construct P w (call_args (ct_task ct w d) EXACT seed) h e = Ok (o, h, set_seed P seed e);
  tn_fit : forest_fit M P (wo_cfg o) (wo_forest o) (None, None) h (set_seed P seed e) = Ok (en_forest (bo_ours b), h', e');
  tn_cfg : en_cfg (bo_ours b) = wo_cfg o;
  tn_judge : judge (ct_task ct w d) (wo_cfg o) (en_forest (bo_ours b)) h' = Ok (bo_ours b);
  tn_y : nth_error h' (se_y d) = Some y; tn_yt : nth_error h' (se_testy d) = Some yt; tn_targets : bo_targets b = la_vals y;
  tn_train : score (ct_class ct) (said (ct_class ct) (sk ct seed (se_X d) (la_vals y) (se_X d))) (la_vals y) = Ok (bo_train b);
  tn_test : score (ct_class ct) (said (ct_class ct) (sk ct seed (se_X d) (la_vals y) (se_testX d))) (la_vals yt) = Ok (bo_test b) }.
Lemma no_bins P d seed h e x : construct P ExtremelyRandomForestRegressor (call_args (ct_task CtGBHRFR ExtremelyRandomForestRegressor d) EXACT seed) h e <> Ok x.
Proof.
  destruct x as [[o h'] e']. intros H. pose proof (attr_means _ _ _ _ _ _ _ _ H Knum_bins ltac:(discriminate) ltac:(discriminate) ltac:(discriminate)) as X.
  assert (A : attribute o Knum_bins = VNone). { rewrite (optional_attr _ _ _ _ _ _ _ _ H Knum_bins (VInt 11)); [reflexivity|]. unfold optional. apply in_or_app. right. cbn. tauto. }
  rewrite A in X. cbn in X.
  pose proof (fixed_means _ _ _ _ _ _ _ _ H Kbin_type (VBin RANDOM) ltac:(cbn; tauto) ltac:(discriminate) ltac:(discriminate) ltac:(discriminate)) as Y. cbn in Y. congruence.
Qed.
Lemma fight_taken sk M P ct d seed h e b h' e' : fight sk M P ct d seed h e = Ok (b, h', e') -> exists w o y yt, entered ct w /\ taken sk M P ct w d seed h e b h' e' o y yt.
Proof.
  intros H. unfold fight in H. apply rbind_ok in H. destruct H as [w [EW H]]. cbv zeta in H. apply rbind_ok in H. destruct H as [[[o h1] e1] [E1 H]].
  assert (EN : entered ct w). { destruct ct; try discriminate EW; apply ok_inv in EW; subst w; try constructor. exfalso. exact (no_bins _ _ _ _ _ _ E1). }
  destruct (entered_wrapper _ _ EN) as (_ & CL & NP).
  pose proof (call_seed _ (ct_task ct w d) _ _ _ _ _ _ _ E1) as SE. destruct (plain_shape _ _ _ _ _ _ _ _ E1 NP) as (-> & _). pose proof (proj1 (construct_env _ _ _ _ _ _ _ _ E1)) as Q. rewrite SE in Q. subst e1.
  apply rbind_ok in H. destruct H as [[[f h2] e2] [E2 H]]. apply rbind_ok in H. destruct H as [y [E3 H]]. cbv zeta in H. apply rbind_ok in H. destruct H as [a [E4 H]]. apply rbind_ok in H. destruct H as [yt [E5 H]].
  apply rbind_ok in H. destruct H as [s [E6 H]]. apply rbind_ok in H. destruct H as [st [E7 H]]. apply ok_inv in H. apply pair_equal_spec in H. destruct H as [H <-]. apply pair_equal_spec in H. destruct H as [<- <-].
  apply nth_res_ok in E3. apply nth_res_ok in E5. destruct (judge_same _ _ _ _ _ E4) as [Q1 Q2].
  exists w, o, y, yt. split; auto. constructor; cbn [bo_ours bo_targets bo_train bo_test]; auto; rewrite Q2; auto.
Qed.

(** ** One seed *)
Theorem one_seed sk M P ct d seed h e b h' e' : fight sk M P ct d seed h e = Ok (b, h', e') ->
  exists w y yt, entered ct w /\ fitted_alone M P (ct_task ct w d) EXACT seed h e (en_cfg (bo_ours b)) (en_forest (bo_ours b)) h' e' /\
    judge (ct_task ct w d) (en_cfg (bo_ours b)) (en_forest (bo_ours b)) h' = Ok (bo_ours b) /\
    nth_error h' (se_y d) = Some y /\ nth_error h' (se_testy d) = Some yt /\ bo_targets b = la_vals y /\
    scored (ct_class ct) (said (ct_class ct) (sk ct seed (se_X d) (la_vals y) (se_X d))) (la_vals y) (bo_train b) /\
    scored (ct_class ct) (said (ct_class ct) (sk ct seed (se_X d) (la_vals y) (se_testX d))) (la_vals yt) (bo_test b).
Proof.
  intros H. destruct (fight_taken _ _ _ _ _ _ _ _ _ _ _ H) as (w & o & y & yt & EN & [A1 A2 A3 A4 A5 A6 A7 A8 A9]). exists w, y, yt. split; auto. rewrite A3. split; [exists o, h, (set_seed P seed e); auto|].
  split; auto. split; auto. split; auto. split; auto. split; now apply score_ok.
Qed.

(** ** The settings *)
Theorem our_settings sk M P ct d seed h e b h' e' : fight sk M P ct d seed h e = Ok (b, h', e') -> five_trees (ct_class ct) seed (en_cfg (bo_ours b)) /\ own_settings ct (en_cfg (bo_ours b)).
Proof.
  intros H. destruct (fight_taken _ _ _ _ _ _ _ _ _ _ _ H) as (w & o & y & yt & EN & [A1 _ A3 _ _ _ _ _ _]). rewrite A3.
  pose proof (attr_means _ _ _ _ _ _ _ _ A1) as AM. pose proof (optional_attr _ _ _ _ _ _ _ _ A1) as OA. pose proof (fixed_means _ _ _ _ _ _ _ _ A1) as FM. pose proof (kind _ _ _ _ _ _ _ _ A1) as KD.
  assert (OP : forall k dv v, In (k, dv) (optional w) -> kget k (call_args (ct_task ct w d) EXACT seed) = Some v -> k <> Kdata -> k <> Klabels -> k <> Kclasses -> means o k v).
  { intros k dv v I G N1 N2 N3. specialize (AM k N1 N2 N3). rewrite (OA k dv I), G in AM. exact AM. }
  assert (ON : forall k dv, In (k, dv) (optional w) -> kget k (call_args (ct_task ct w d) EXACT seed) = None -> k <> Kdata -> k <> Klabels -> k <> Kclasses -> means o k dv).
  { intros k dv I G N1 N2 N3. specialize (AM k N1 N2 N3). rewrite (OA k dv I), G in AM. exact AM. }
  assert (F : forall k v, In (k, v) (actual w) -> k <> Kdata -> k <> Klabels -> k <> Kclasses -> means o k v) by exact FM.
  split.
  - constructor.
    + rewrite KD. apply (entered_wrapper _ _ EN).
    + pose proof (OP Kn_estimators (VInt 100) (VInt 5) ltac:(cbn; tauto) eq_refl ltac:(discriminate) ltac:(discriminate) ltac:(discriminate)) as X. cbn in X. lia.
    + exact (OP Kmax_depth VNone (VInt 5) ltac:(cbn; tauto) eq_refl ltac:(discriminate) ltac:(discriminate) ltac:(discriminate)).
    + pose proof (OP Kmin_samples_split (VInt 2) (VInt 2) ltac:(cbn; tauto) eq_refl ltac:(discriminate) ltac:(discriminate) ltac:(discriminate)) as X. cbn in X. lia.
    + pose proof (OP Kmin_impurity_decrease (VInt 0) (VInt 0) ltac:(cbn; tauto) eq_refl ltac:(discriminate) ltac:(discriminate) ltac:(discriminate)) as X. cbn [means] in X. rewrite X. now apply Qc_is_canon.
    + exact (OP Kmax_leaf_nodes VNone VNone ltac:(cbn; tauto) eq_refl ltac:(discriminate) ltac:(discriminate) ltac:(discriminate)).
    + exact (OP Kcriterion _ (VMeasure (if ct_class ct then GINI else MSE)) ltac:(cbn; tauto) eq_refl ltac:(discriminate) ltac:(discriminate) ltac:(discriminate)).
    + exact (OP Ksplitter (VSplitter BEST) (VSplitter BEST) ltac:(cbn; tauto) eq_refl ltac:(discriminate) ltac:(discriminate) ltac:(discriminate)).
    + exact (OP Ksolver (VSolver EXACT) (VSolver EXACT) ltac:(cbn; tauto) eq_refl ltac:(discriminate) ltac:(discriminate) ltac:(discriminate)).
    + exact (call_seed _ (ct_task ct w d) _ _ _ _ _ _ _ A1).
    + destruct EN; first [exact (ON Kwith_replacement (VBool false) ltac:(cbn; tauto) eq_refl ltac:(discriminate) ltac:(discriminate) ltac:(discriminate))|exact (OP Kwith_replacement (VBool false) (VBool false) ltac:(cbn; tauto) eq_refl ltac:(discriminate) ltac:(discriminate) ltac:(discriminate))].
    + apply (F Kmake_discrete (VBool false)); try discriminate. destruct EN; cbn; tauto.
    + apply (F Koob_score (VBool false)); try discriminate. destruct EN; cbn; tauto.
    + split; [apply (F Kalpha_N (VNum 1%Qc)); try discriminate|apply (F Kalpha_F (VNum 1%Qc)); try discriminate]; destruct EN; cbn; tauto.
  - destruct EN; cbn [own_settings];
      repeat match goal with
      | |- _ /\ _ => split
      | |- fc_bootstrap _ = ?v => first [exact (F Kbootstrap (VBool v) ltac:(cbn; tauto) ltac:(discriminate) ltac:(discriminate) ltac:(discriminate))|exact (OP Kbootstrap (VBool false) (VBool v) ltac:(cbn; tauto) eq_refl ltac:(discriminate) ltac:(discriminate) ltac:(discriminate))]
      | |- fc_fsub _ = FSSqrt => exact (F Kfeature_subsampling VSqrt ltac:(cbn; tauto) ltac:(discriminate) ltac:(discriminate) ltac:(discriminate))
      | |- fc_fsub _ = FSNone => exact (F Kfeature_subsampling VNone ltac:(cbn; tauto) ltac:(discriminate) ltac:(discriminate) ltac:(discriminate))
      | |- fc_bin _ = ?v => exact (F Kbin_type (VBin v) ltac:(cbn; tauto) ltac:(discriminate) ltac:(discriminate) ltac:(discriminate))
      | |- fc_boosting _ = ?v => exact (F Kboosting (VBool v) ltac:(cbn; tauto) ltac:(discriminate) ltac:(discriminate) ltac:(discriminate))
      | |- fc_lr _ = Some ?v => exact (OP Kboosting_lr VNone (VNum v) ltac:(cbn; tauto) eq_refl ltac:(discriminate) ltac:(discriminate) ltac:(discriminate))
      | |- fc_nb _ = 1 => let X := fresh in pose proof (OP Knum_bins (VInt 11) (VInt 1) ltac:(cbn; tauto) eq_refl ltac:(discriminate) ltac:(discriminate) ltac:(discriminate)) as X; cbn in X; lia
      end.
Qed.

(** ** Who is trained on what *)
Theorem labels_kept sk M P ct d seed h e b h' e' : ct <> CtGBRFR -> fight sk M P ct d seed h e = Ok (b, h', e') -> forall r, r < length h -> nth_error h' r = nth_error h r.
Proof.
  intros NG H. destruct (our_settings _ _ _ _ _ _ _ _ _ _ _ H) as [_ OS]. destruct (fight_taken _ _ _ _ _ _ _ _ _ _ _ H) as (w & o & y & yt & EN & [A1 A2 A3 _ _ _ _ _ _]). rewrite A3 in OS.
  destruct (labels_untouched _ _ _ _ _ _ _ _ _ _ A2) as [U _]. apply U. left. destruct ct; cbn in OS; try tauto; congruence.
Qed.
Theorem same_targets sk M P ct d seed h e b h' e' y : ct <> CtGBRFR -> fight sk M P ct d seed h e = Ok (b, h', e') -> nth_error h (se_y d) = Some y -> bo_targets b = la_vals y.
Proof.
  intros NG H Y. pose proof (labels_kept _ _ _ _ _ _ _ _ _ _ _ NG H (se_y d)) as K. destruct (fight_taken _ _ _ _ _ _ _ _ _ _ _ H) as (w & o & y' & yt & EN & A). rewrite (tn_targets _ _ _ _ _ _ _ _ _ _ _ _ _ _ _ A).
  rewrite (tn_y _ _ _ _ _ _ _ _ _ _ _ _ _ _ _ A), Y in K. f_equal. assert (Some y' = Some y) as Q; [apply K; apply nth_error_Some; congruence|congruence].
Qed.
Theorem errors_as_targets sk M P d seed h e b h' e' ys : fight sk M P CtGBRFR d seed h e = Ok (b, h', e') -> nth_error h (se_y d) = Some {| la_int := false; la_vals := ys |} ->
  exists ps g, forest_predict_batch (en_cfg (bo_ours b)) (en_forest (bo_ours b)) (se_X d) = Ok (ps, g) /\ length ps = length (bo_targets b) /\
    (forall i v, nth_error ps i = Some (FReg v) -> nth i (bo_targets b) 0%Qc = (nth i ys 0 - v)%Qc) /\
    (forall vs, ps = map FReg vs -> vs <> [] -> en_train (bo_ours b) = Fin (mean (map (fun yv => (snd yv + snd yv - fst yv) * (snd yv + snd yv - fst yv))%Qc (combine ys vs)))).
Proof.
  intros H Y. destruct (our_settings _ _ _ _ _ _ _ _ _ _ _ H) as [FT OS]. destruct (fight_taken _ _ _ _ _ _ _ _ _ _ _ H) as (w & o & y & yt & EN & [A1 A2 A3 A4 A5 A6 A7 _ _]).
  destruct (entered_wrapper _ _ EN) as (_ & CL & NP). rewrite A3 in FT, OS. destruct OS as (S1 & S2 & S3 & S4 & S5). destruct (ft_alphas _ _ _ FT) as [AN AF]. pose proof (ft_class _ _ _ FT) as FC. cbn [ct_class] in FC, CL.
  destruct (judged _ _ _ _ _ A4) as (ps & g & y0 & B1 & B2 & B3 & _). cbn [ct_task tk_X tk_y tk_w] in B1, B2, B3. rewrite A5 in B2. injection B2 as <-. rewrite CL in B3. cbn [scored] in B3. destruct B3 as [LP B3].
  destruct (plain_shape _ _ _ _ _ _ _ _ A1 NP) as (_ & _ & D & _ & L & _). specialize (D (se_X d) (or_introl eq_refl)). specialize (L (se_y d) (or_intror (or_introl eq_refl))).
  assert (BR : boost_ref (wo_forest o) (None, None) = Some (se_y d)).
  { destruct (built_new _ _ _ _ _ _ _ _ A1) as (dt & l & cl & bu & _ & _ & _ & _ & FN). apply new_shape in FN. destruct FN as (_ & F1 & F2 & _). unfold boost_ref. cbn. congruence. }
  assert (AR : all_rows (wo_cfg o)) by (split; [exact S1|]; rewrite AN, AF; split; apply Qcle_refl).
  assert (K : forall i v, nth_error ps i = Some (FReg v) -> length (la_vals y) = length ys /\ nth i (la_vals y) 0%Qc = (nth i ys 0 - v)%Qc).
  { intros i v E. assert (NX : 1 <= length (se_X d)). { destruct (se_X d); [|cbn; lia]. cbn in B1. apply ok_inv in B1. apply pair_equal_spec in B1. destruct B1 as [<- _]. destruct i; discriminate E. }
    pose proof (forest_batch_pointwise M P _ _ _ _ _ _ _ _ _ A2 (used_not _ _ _) (se_X d) D (all_some _ _ AR NX) (se_X d)) as PW. clear NX. rewrite B1 in PW. cbn [answer] in PW. symmetry in PW.
    destruct (mapM_nth _ _ _ _ _ PW E) as (x & NX & AX). unfold answer in AX. destruct (forest_predict (wo_cfg o) (en_forest (bo_ours b)) x) as [[p f']|] eqn:FP; [|discriminate AX]. apply ok_inv in AX. subst p.
    assert (LI : i < length (se_X d)) by (apply nth_error_Some; congruence). rewrite <- (nth_error_nth _ _ [] NX) in FP.
    destruct (boosting_residual _ _ _ _ _ _ _ _ _ _ _ _ _ _ i v f' A2 (used_not _ _ _) D AR FC S4 BR Y LI FP) as (ys' & R1 & R2 & R3). rewrite A5 in R1. injection R1 as R1. subst y. cbn [la_vals]. split; auto. rewrite <- R3. ring. }
  exists ps, g. rewrite A3, A7. split; auto. split; auto. split; [intros i v E; now apply K|].
  intros vs E N. destruct B3 as [(vs' & E' & NY & EQ)|[[E'|E'] _]].
  - assert (vs' = vs) as ->. { assert (G : forall u v, map FReg u = map FReg v -> u = v) by (intros u; induction u as [|a u IH]; intros [|c v] Q; try discriminate Q; auto; injection Q as -> Q; f_equal; auto). apply G. congruence. }
    rewrite EQ. f_equal. f_equal. assert (LY : length (la_vals y) = length ys). { destruct vs as [|v vs]; [contradiction|]. apply (K 0 v). now rewrite E. }
    assert (PT : forall i, i < length vs -> nth i (la_vals y) 0%Qc = (nth i ys 0 - nth i vs 0)%Qc). { intros i Li. apply K. rewrite E. rewrite nth_error_map. rewrite (nth_error_nth' vs 0%Qc Li). reflexivity. }
    assert (LV : length vs = length (la_vals y)) by (rewrite <- LP, E, map_length; reflexivity). clear -LY LV PT. revert vs ys LY LV PT. induction (la_vals y) as [|r rs IH]; intros [|v vs] [|y0 ys] LY LV PT; try discriminate LY; try discriminate LV; auto. cbn [combine map fst snd].
    f_equal; [pose proof (PT 0 ltac:(cbn; lia)) as Q; cbn in Q; rewrite Q; ring|]. apply IH; [now injection LY|now injection LV|]. intros i Li. apply (PT (S i)). cbn. lia.
  - exfalso. rewrite E' in LP. rewrite E, map_length in LP. destruct vs; [contradiction|discriminate LP].
  - exfalso. rewrite E in E'. apply in_map_iff in E'. destruct E' as (v & Q & _). discriminate Q.
Qed.

(** ** The seeds *)
Theorem fights_chain sk M P ct d n h e l h' e' : fights sk M P ct d n h e = Ok (l, h', e') -> length l = n /\ exists hs es, hs 0 = h /\ es 0 = e /\ hs n = h' /\ es n = e' /\
  forall i b, nth_error l i = Some b -> fight sk M P ct d i (hs i) (es i) = Ok (b, hs (S i), es (S i)).
Proof.
  unfold fights. revert l h' e'. induction n as [|n IH]; intros l h' e' H.
  - cbn in H. apply ok_inv in H. apply pair_equal_spec in H. destruct H as [H <-]. apply pair_equal_spec in H. destruct H as [<- <-]. split; auto. exists (fun _ => h), (fun _ => e). repeat split; auto. intros [|i] b Q; discriminate Q.
  - rewrite seq_S, foldM_app in H. apply rbind_ok in H. destruct H as [[[l0 h0] e0] [E H]]. destruct (IH _ _ _ E) as (L & hs & es & A & B & C & D & R). cbn [plus foldM] in H. apply rbind_ok in H. destruct H as [[[l1 h1] e1] [E1 H]]. apply ok_inv in H. apply pair_equal_spec in H. destruct H as [H <-]. apply pair_equal_spec in H. destruct H as [<- <-].
    unfold one_fight in E1. apply rbind_ok in E1. destruct E1 as [[[b h2] e2] [ER E1]]. apply ok_inv in E1. apply pair_equal_spec in E1. destruct E1 as [E1 <-]. apply pair_equal_spec in E1. destruct E1 as [<- <-].
    split; [rewrite app_length; cbn; lia|]. exists (fun i => if le_lt_dec i n then hs i else h2), (fun i => if le_lt_dec i n then es i else e2).
    split; [now destruct (le_lt_dec 0 n); [|lia]|]. split; [now destruct (le_lt_dec 0 n); [|lia]|]. split; [now destruct (le_lt_dec (S n) n); [lia|]|]. split; [now destruct (le_lt_dec (S n) n); [lia|]|].
    intros i b0 Q. destruct (Nat.lt_ge_cases i (length l0)) as [I|I].
    + rewrite nth_error_app1 in Q by auto. destruct (le_lt_dec i n); [|lia]. destruct (le_lt_dec (S i) n); [|lia]. now apply R.
    + rewrite nth_error_app2 in Q by auto. destruct (i - length l0) as [|k] eqn:DI; [|destruct k; discriminate Q]. injection Q as <-. assert (i = n) as -> by lia. destruct (le_lt_dec n n); [|lia]. destruct (le_lt_dec (S n) n); [lia|]. rewrite C, D. exact ER.
Qed.
(** Without boosting every model of every seed is trained on the labels the caller passed. *)
Theorem all_same_targets sk M P ct d n h e l h' e' y : ct <> CtGBRFR -> fights sk M P ct d n h e = Ok (l, h', e') -> nth_error h (se_y d) = Some y ->
  (forall r, r < length h -> nth_error h' r = nth_error h r) /\ forall b, In b l -> bo_targets b = la_vals y.
Proof.
  intros NG H Y. destruct (fights_chain _ _ _ _ _ _ _ _ _ _ _ H) as (L & hs & es & A & B & C & D & R).
  assert (K : forall i, i <= n -> length h <= length (hs i) /\ forall r, r < length h -> nth_error (hs i) r = nth_error h r).
  { induction i as [|i IH]; intros Li; [rewrite A; auto|]. destruct (IH ltac:(lia)) as [IH1 IH2]. destruct (nth_error l i) as [b|] eqn:E; [|apply nth_error_None in E; lia]. pose proof (labels_kept _ _ _ _ _ _ _ _ _ _ _ NG (R _ _ E)) as K.
    assert (K' : forall r, r < length h -> nth_error (hs (S i)) r = nth_error h r) by (intros r Lr; rewrite K by lia; auto). split; auto. destruct (Nat.le_gt_cases (length h) (length (hs (S i)))) as [Q|Q]; auto. exfalso. specialize (K' (length (hs (S i))) Q). rewrite (proj2 (nth_error_None _ _) (Nat.le_refl _)) in K'. symmetry in K'. apply nth_error_None in K'. lia. }
  assert (LY : se_y d < length h) by (apply nth_error_Some; congruence).
  split; [rewrite <- C; now apply K|]. intros b I. apply In_nth_error in I. destruct I as [i I]. assert (Li : i < n) by (rewrite <- L; apply nth_error_Some; congruence).
  apply (same_targets _ _ _ _ _ _ _ _ _ _ _ _ NG (R _ _ I)). rewrite (proj2 (K i ltac:(lia)) _ LY). exact Y.
Qed.

(** ** The numbers returned *)
Lemma spread_fin M l : l <> [] -> spread M (map Fin l) = {| st_avg := Fin (mean l); st_std := Fin (deviation M l) |}.
Proof.
  intros N. unfold spread. rewrite (xmean_fin (fun q => q)) by auto. rewrite map_id. f_equal. unfold xstd. rewrite (xmean_fin (fun q => q)) by auto. rewrite map_id, map_map. cbn [xsub xadd xopp xmul].
  rewrite (xmean_fin (fun q => ((q + - mean l) * (q + - mean l))%Qc)) by auto. assert (V : mean (map (fun q => ((q + - mean l) * (q + - mean l))%Qc) l) = variance l) by (unfold variance, mean at 1; rewrite map_length; reflexivity). rewrite V.
  unfold xsqrt. rewrite (proj2 (qlt_false _ _) (variance_nonneg l)). reflexivity.
Qed.
Theorem returned sk M P ct d n h e oc h' e' : compare_accuracies sk M P ct d n h e = Ok (oc, h', e') -> 1 <= n ->
  fights sk M P ct d n h e = Ok (oc_bouts oc, h', e') /\
  (forall q, map (fun b => en_train (bo_ours b)) (oc_bouts oc) = map Fin q -> spans M (oc_train oc) q) /\ (forall q, map bo_train (oc_bouts oc) = map Fin q -> spans M (oc_their_train oc) q) /\
  forall os ts, map (fun b => en_test (bo_ours b)) (oc_bouts oc) = map (fun q => Some (Fin q)) os -> map bo_test (oc_bouts oc) = map Fin ts ->
    spans M (oc_test oc) os /\ spans M (oc_their_test oc) ts /\
    (oc_overlap oc = true <-> (mean ts - mean os < deviation M ts + deviation M os)%Qc /\ (mean os - mean ts < deviation M ts + deviation M os)%Qc).
Proof.
  intros H N. unfold compare_accuracies in H. apply rbind_ok in H. destruct H as [[[l h2] e2] [E H]]. cbv zeta in H. apply ok_inv in H. apply pair_equal_spec in H. destruct H as [H <-]. apply pair_equal_spec in H. destruct H as [<- <-].
  destruct (fights_chain _ _ _ _ _ _ _ _ _ _ _ E) as (L & _). cbn [oc_bouts oc_train oc_test oc_their_train oc_their_test oc_overlap].
  assert (NE : forall A (f : bout -> A) B (g : B -> A) q, map f l = map g q -> q <> []) by (intros A f B g q Q ->; apply (f_equal (@length _)) in Q; rewrite !map_length in Q; cbn in Q; lia).
  split; auto. split; [intros q Q; unfold spans; rewrite Q; apply spread_fin; eauto|]. split; [intros q Q; unfold spans; rewrite Q; apply spread_fin; eauto|].
  intros os ts QO QT. rewrite QO, QT, (somes_map Fin). pose proof (NE _ _ _ _ _ QO) as NO. pose proof (NE _ _ _ _ _ QT) as NT. unfold spans. rewrite !spread_fin by auto. split; auto. split; auto.
  unfold overlap_of. cbn [st_avg st_std xsub xadd xopp xabs]. set (x := (mean ts + - mean os)%Qc). set (s := (deviation M ts + deviation M os)%Qc).
  change (mean ts - mean os)%Qc with x. assert (D' : (mean os - mean ts = - x)%Qc) by (unfold x; ring). rewrite D'. destruct (qlt x 0) eqn:Q; cbn [xlt].
  - apply qlt_spec in Q. rewrite qlt_spec. split; [intros A; split; auto; qlra|tauto].
  - apply qlt_false in Q. rewrite qlt_spec. split; [intros A; split; auto; qlra|tauto].
Qed.
Theorem no_verdict_from_one sk M P ct d h e oc h' e' : (m_sqrt M 0 = 0)%Qc -> compare_accuracies sk M P ct d 1 h e = Ok (oc, h', e') -> oc_overlap oc = false.
Proof.
  intros S0 H. unfold compare_accuracies in H. apply rbind_ok in H. destruct H as [[[l h2] e2] [E H]]. cbv zeta in H. apply ok_inv in H. apply pair_equal_spec in H. destruct H as [H _]. apply pair_equal_spec in H. destruct H as [<- _].
  destruct (fights_chain _ _ _ _ _ _ _ _ _ _ _ E) as (L & _). destruct l as [|b [|b2 l]]; try discriminate L. cbn [oc_overlap map].
  assert (K : forall a x, st_std a = Fin 0%Qc \/ st_std a = NaN -> st_std x = Fin 0%Qc \/ st_std x = NaN -> overlap_of a x = false).
  { intros a x Z1 Z2. unfold overlap_of. destruct Z1 as [-> | ->], Z2 as [-> | ->]; cbn [xadd]; destruct (xabs _) eqn:XA; cbn [xlt]; auto; unfold xabs in XA; destruct (xsub _ _) as [q0| | |]; try discriminate XA; destruct (qlt q0 0) eqn:Q; try discriminate XA; injection XA as <-.
    - apply qlt_false. apply qlt_spec in Q. replace (0 + 0)%Qc with 0%Qc by ring. apply Qclt_le_weak. apply Qclt_minus_iff in Q. replace (- q0)%Qc with (0 + - q0)%Qc by ring. exact Q.
    - apply qlt_false in Q. apply qlt_false. replace (0 + 0)%Qc with 0%Qc by ring. exact Q. }
  apply K; unfold spread; cbn [st_std].
  - apply (const_std M _ (match en_test (bo_ours b) with Some v => v | None => NaN end)); auto. intros y. destruct (en_test (bo_ours b)); cbn; intuition congruence.
  - apply (const_std M _ (bo_test b)); auto. cbn. intuition congruence.
Qed.
Theorem unknown_contest sk M P d n h e : compare_accuracies sk M P CtOther d (S n) h e = Err NotImplementedError.
Proof. reflexivity. Qed.

(** Theorems about fitted forests. *)
From Coq Require Import List Arith Bool ZArith QArith Qcanon Lia Permutation.
From Verif Require Import Base Num Rng Histogram Utils Criteria Solvers Tree Forest Spec SolverSpec TreeSpec ForestSpec NumFacts ListFacts DrawFacts TreeFacts CountFacts TreeThms ForestFacts.
Import ListNotations.
Local Open Scope nat_scope.

Definition kept (ts ts' : list (tcfg * tree)) : Prop :=
  Forall2 (fun ct ct' => fst ct' = fst ct /\ warmed (fst ct) (snd ct) (snd ct')) ts ts'.
Lemma kept_refl ts : kept ts ts.
Proof. induction ts; constructor; auto. split; auto. apply warmed_refl. Qed.
Lemma kept_trans a b d : kept a b -> kept b d -> kept a d.
Proof.
  intros H. revert d. induction H as [|x y a b [H1 H2] H IH]; intros d K; inversion K; subst; constructor.
  - destruct H4 as [K1 K2]. split; [congruence|]. rewrite H1 in K2. eapply warmed_trans; eauto.
  - now apply IH.
Qed.

(** Same forest, up to caches. *)
Record like (f f' : forest) : Prop := {
  lk_trees : kept (f_trees f) (f_trees f');
  lk_frame : f_data f' = f_data f /\ f_org f' = f_org f /\ f_new f' = f_new f /\ f_classes f' = f_classes f /\ f_ncl f' = f_ncl f /\
             f_oob f' = f_oob f /\ f_queries f' = f_queries f /\ f_budget f' = f_budget f /\ f_gen f' = f_gen f
}.
Lemma like_refl f : like f f.
Proof. split; [apply kept_refl|repeat split]. Qed.
Lemma like_trans a b d : like a b -> like b d -> like a d.
Proof.
  intros [H1 H2] [K1 K2]. split; [eapply kept_trans; eauto|]. destruct H2 as (? & ? & ? & ? & ? & ? & ? & ? & ?). destruct K2 as (? & ? & ? & ? & ? & ? & ? & ? & ?).
  repeat split; congruence.
Qed.
Lemma set_trees_like f ts : kept (f_trees f) ts -> like f (set_trees f ts).
Proof. intros K. split; [exact K|repeat split]. Qed.

Lemma predict_like c f x p f' : forest_predict c f x = Ok (p, f') -> like f f' /\ exists ps ts, trees_predict (f_trees f) x = Ok (ps, ts) /\ f' = set_trees f ts.
Proof.
  unfold forest_predict. intros H. apply rbind_ok in H. destruct H as [[ps ts] [E H]].
  assert (G : f' = set_trees f ts).
  { destruct (fc_class c).
    - apply rbind_ok in H. destruct H as [rows [_ H]]. destruct rows.
      + apply rbind_ok in H. destruct H as [k [_ H]]. apply ok_pair_inv in H. destruct H as [_ <-]. auto.
      + apply rbind_ok in H. destruct H as [k [_ H]]. apply rbind_ok in H. destruct H as [l0 [_ H]]. apply ok_pair_inv in H. destruct H as [_ <-]. auto.
    - apply rbind_ok in H. destruct H as [vs [_ H]]. destruct (fc_boosting c).
      + destruct vs; [discriminate H|]. apply rbind_ok in H. destruct H as [lr [_ H]]. apply ok_pair_inv in H. destruct H as [_ <-]. auto.
      + destruct vs; apply ok_pair_inv in H; destruct H as [_ <-]; auto. }
  split; [|eauto]. rewrite G. apply set_trees_like. apply (trees_predict_spec x _ _ _ E).
Qed.
Lemma predict_batch_like c xs : forall f ps f', forest_predict_batch c f xs = Ok (ps, f') -> like f f'.
Proof.
  induction xs as [|x xs IH]; intros f ps f' H; cbn [forest_predict_batch] in H.
  - apply ok_pair_inv in H. destruct H as [_ <-]. apply like_refl.
  - apply rbind_ok in H. destruct H as [[p f1] [E1 H]]. apply rbind_ok in H. destruct H as [[qs f2] [E2 H]]. cbn [fst snd] in *. apply ok_pair_inv in H. destruct H as [_ <-].
    eapply like_trans; [eapply predict_like; eauto|eauto].
Qed.
Lemma oob_kept ic data : forall ts oob acc acc' ts', oob_accumulate ic data ts oob acc = Ok (acc', ts') -> kept ts ts'.
Proof.
  induction ts as [|[tc t] ts IH]; intros oob acc acc' ts' H; cbn [oob_accumulate] in H.
  - apply ok_pair_inv in H. destruct H as [_ <-]. constructor.
  - apply rbind_ok in H. destruct H as [idcs [_ H]]. apply rbind_ok in H. destruct H as [u [_ H]]. apply rbind_ok in H. destruct H as [rows [_ H]].
    apply rbind_ok in H. destruct H as [[ps t'] [E H]]. apply rbind_ok in H. destruct H as [prs [_ H]]. apply rbind_ok in H. destruct H as [[acc2 ts2] [E2 H]]. cbn [fst snd] in *.
    apply ok_pair_inv in H. destruct H as [_ <-]. constructor; [|eapply IH; eauto]. cbn [fst snd]. split; auto. exists rows, ps. exact E.
Qed.
Lemma oob_like c f h d s f' : get_oob_score c f h d = Ok (s, f') -> like f f'.
Proof.
  unfold get_oob_score. intros H. apply rbind_ok in H. destruct H as [dt [_ H]]. apply rbind_ok in H. destruct H as [r [_ H]]. apply rbind_ok in H. destruct H as [la [_ H]].
  apply rbind_ok in H. destruct H as [[acc ts] [E H]]. assert (G : f' = set_trees f ts).
  { destruct (fc_class c); [apply rbind_ok in H; destruct H as [hits [_ H]]|]; apply ok_pair_inv in H; destruct H as [_ <-]; auto. }
  rewrite G. apply set_trees_like. eapply oob_kept; eauto.
Qed.
Lemma mdi_like f arr f' : calculate_mdi f = Ok (arr, f') -> like f f'.
Proof.
  unfold calculate_mdi. destruct (f_mdg f). { intros H. apply ok_pair_inv in H. destruct H as [_ <-]. apply like_refl. }
  intros H. apply rbind_ok in H. destruct H as [d [_ H]]. apply rbind_ok in H. destruct H as [r0 [_ H]]. apply rbind_ok in H. destruct H as [a [_ H]]. apply ok_pair_inv in H. destruct H as [_ <-].
  split; [apply kept_refl|repeat split].
Qed.
Lemma used_like c h f f' : used c h f f' -> like f f'.
Proof.
  induction 1; [apply like_refl|..]; (eapply like_trans; [eassumption|]).
  - eapply predict_like; eauto.
  - eapply predict_batch_like; eauto.
  - eapply oob_like; eauto.
  - eapply mdi_like; eauto.
Qed.

(** ** Means *)
Lemma qsum_swap {A B} (g : A -> B -> Qc) (l : list A) (m : list B) :
  qsum (map (fun a => qsum (map (g a) m)) l) = qsum (map (fun b => qsum (map (fun a => g a b) l)) m).
Proof.
  induction l as [|a l IH]; cbn [map qsum].
  - rewrite (qsum_map_const 0%Qc m). ring.
  - rewrite IH. symmetry. apply (qsum_map_plus (g a)).
Qed.
Lemma map_nth_seq (r : list Qc) : map (fun j => nth j r 0%Qc) (seq 0 (length r)) = r.
Proof.
  apply list_ext. intros i. rewrite nth_error_map. destruct (le_lt_dec (length r) i) as [L|L].
  - rewrite (proj2 (nth_error_None r i) L). rewrite (proj2 (nth_error_None (seq 0 (length r)) i)); auto. now rewrite seq_length.
  - rewrite (nth_error_nth' (seq 0 (length r)) 0) by now rewrite seq_length. rewrite seq_nth by auto. cbn. symmetry. now apply nth_error_nth'.
Qed.
Lemma col_means_total k rows : rows <> [] -> (forall r, In r rows -> length r = k /\ qsum r = 1%Qc) -> qsum (col_means k rows) = 1%Qc.
Proof.
  intros NE H. unfold col_means. assert (NP : Nq (length rows) <> 0%Qc) by (apply Nq_neq0; destruct rows; [contradiction|cbn; lia]).
  rewrite (qsum_map_ext _ (fun j => (1 / Nq (length rows)) * qsum (map (fun r => nth j r 0%Qc) rows))%Qc).
  - rewrite qsum_map_scal. rewrite (qsum_swap (fun j r => nth j r 0%Qc)). rewrite (qsum_map_ext _ (fun _ => 1%Qc)).
    + rewrite qsum_map_const. field. auto.
    + intros r I. destruct (H r I) as [<- S]. now rewrite map_nth_seq.
  - intros j _. unfold qmean. rewrite map_length. field. auto.
Qed.
Lemma col_means_nth k rows j : j < k -> nth_error (col_means k rows) j = Some (qmean (map (fun r => nth j r 0%Qc) rows)).
Proof. intros L. unfold col_means. rewrite nth_error_map, (nth_error_nth' (seq 0 k) 0) by now rewrite seq_length. rewrite seq_nth by auto. reflexivity. Qed.
Lemma col_means_length k rows : length (col_means k rows) = k.
Proof. unfold col_means. now rewrite map_length, seq_length. Qed.
Lemma col_means_perm k rows rows' : Permutation rows rows' -> col_means k rows = col_means k rows'.
Proof.
  intros H. unfold col_means. apply map_ext. intros j. unfold qmean. rewrite !map_length, (Permutation_length H). f_equal. now apply qsum_perm, Permutation_map.
Qed.

(** ** Predictions of a fitted forest *)
Lemma info_warmed M P c data F f1 h1 ct ct' a : info M P c data F f1 h1 ct a -> fst ct' = fst ct -> warmed (fst ct) (snd ct) (snd ct') -> info M P c data F f1 h1 ct' a.
Proof.
  intros [I1 I2 I3 I4 I5] E W. constructor; auto; [congruence|]. rewrite E. eapply grown_warmed; eauto.
Qed.
Lemma infos_kept M P c data F f1 h1 ts ts' infos : Forall2 (info M P c data F f1 h1) ts infos -> kept ts ts' -> Forall2 (info M P c data F f1 h1) ts' infos.
Proof.
  intros H. revert ts'. induction H as [|ct a ts infos I H IH]; intros ts' K; inversion K; subst; constructor.
  - destruct H2 as [E W]. eapply info_warmed; eauto.
  - now apply IH.
Qed.

Section Use.
Context (M : math) (P : prng) (c : fcfg) (f0 : forest) (arg : option (list (list Qc)) * option nat) (h0 : heap) (e0 : env) (f1 : forest) (h1 : heap) (e1 : env) (f : forest).
Context (HF : forest_fit M P c f0 arg h0 e0 = Ok (f1, h1, e1)) (HU : used c h1 f1 f).
Context (data : list (list Qc)) (HD : fit_data f0 arg = Some data) (SR : some_rows c (length data)).

Lemma use_infos : exists F g1 hh infos, started c f0 arg h0 data F g1 hh /\ Forall2 (info M P c data F g1 hh) (f_trees f) infos /\
  f_classes f = f_classes f0 /\ f_ncl f = f_ncl f0 /\ (length infos <= fc_n c) /\ (f_budget f0 = None -> length infos = fc_n c) /\
  f_data f = Some data /\ f_queries f = f_queries f0 + spent (f_trees f) /\ kept (f_trees f1) (f_trees f).
Proof.
  destruct (fitted_forest _ _ _ _ _ _ _ _ _ _ HF) as (data' & F & g1 & hh & s & infos & SD & -> & _ & V).
  pose proof (sd_data _ _ _ _ _ _ _ _ SD) as D. rewrite HD in D. injection D as <-.
  destruct (used_like _ _ _ _ HU) as [K (L1 & L2 & L3 & L4 & L5 & L6 & L7 & L8 & L9)]. destruct (fi_frame _ _ _ _ _ _ _ _ _ _ V) as (ts & b & q & o & g & FR).
  destruct (sd_f1 _ _ _ _ _ _ _ _ SD) as (S1 & S2 & S3 & S4 & S5 & S6 & S7 & S8).
  exists F, g1, hh, infos. split; auto. split; [eapply infos_kept; eauto using fi_trees|]. split; [rewrite L4, FR; exact S3|]. split; [rewrite L5, FR; exact S4|].
  destruct (fi_count _ _ _ _ _ _ _ _ _ _ V) as [C1 [C2 C3]]. split; auto. split; [intros Z; apply C2, C3; congruence|]. split; [rewrite L1, FR; exact S1|]. split; auto.
  rewrite L7, (fi_queries _ _ _ _ _ _ _ _ _ _ V), S6. f_equal. clear -K. unfold spent. induction K as [|ct ct' ts ts' [E W] K IH]; auto. cbn. rewrite (warmed_queries _ _ _ W). f_equal. exact IH.
Qed.

Lemma votes_of x p f' : forest_predict c f x = Ok (p, f') -> exists ps, votes f x ps /\ exists ts, trees_predict (f_trees f) x = Ok (ps, ts).
Proof. intros H. destruct (predict_like _ _ _ _ _ H) as [_ (ps & ts & E & _)]. exists ps. split; [|eauto]. apply (trees_predict_spec x _ _ _ E). Qed.

Lemma votes_class x ps : fc_class c = true -> good_classes (f_classes f0) -> votes f x ps ->
  Forall (fun p => exists label probs, p = PClass label probs /\ length probs = length (f_classes f0) /\ (forall q, In q probs -> (0 <= q)%Qc /\ (q <= 1)%Qc) /\ qsum probs = 1%Qc) ps.
Proof.
  intros IC GC V. destruct use_infos as (F & g1 & hh & infos & SD & IN & _). unfold votes in V. revert V. generalize ps as qs. revert IN. generalize (f_trees f) as ts.
  intros ts IN. induction IN as [|ct a ts infos [I1 I2 I3 I4 I5] IN IH]; intros qs V; inversion V; subst; constructor; auto.
  assert (NE : train_rows a <> []) by (apply (ao_some _ _ _ _ _ I3); exact SR).
  assert (EC : tc_classes (fst ct) = f_classes f0). { rewrite I1. cbn. apply (sd_f1 _ _ _ _ _ _ _ _ SD). }
  destruct (grown_class P M (fst ct) a (snd ct) I2 NE x y) as (l & q & K1 & K2 & K3 & K4); auto.
  - rewrite I1. exact IC.
  - rewrite EC. exact GC.
  - exists l, q. rewrite <- EC. auto.
Qed.
Lemma votes_reg x ps : fc_class c = false -> votes f x ps -> Forall (fun p => exists v, p = PReg v) ps.
Proof.
  intros IC V. destruct use_infos as (F & g1 & hh & infos & SD & IN & _). unfold votes in V. revert V. generalize ps as qs. revert IN. generalize (f_trees f) as ts.
  intros ts IN. induction IN as [|ct a ts infos [I1 I2 I3 I4 I5] IN IH]; intros qs V; inversion V; subst; constructor; auto.
  assert (NE : train_rows a <> []) by (apply (ao_some _ _ _ _ _ I3); exact SR).
  destruct (grown_reg P M (fst ct) a (snd ct) I2 NE x y) as (v & K & _); auto; [|eauto]. rewrite I1. exact IC.
Qed.

Lemma mapM_probs k ps rows : mapM (probs_of k) ps = Ok rows -> map (fun r => r) rows = map (fun p => match p with PClass _ l => l | PReg _ => [] end) ps /\
  forall j, map (fun r => nth j r 0%Qc) rows = map (fun p => prob_of p j) ps.
Proof.
  intros H. apply mapM_Forall2 in H. induction H as [|p r ps rows H FF [IH1 IH2]]; cbn [map]; auto. destruct p as [l q|v]; cbn [probs_of] in H; [|discriminate].
  apply rbind_ok in H. destruct H as [u [_ H]]. injection H as <-. split; [f_equal; exact IH1|]. intros j. rewrite IH2. reflexivity.
Qed.

Lemma forest_probabilities x l avg f' : fc_class c = true -> good_classes (f_classes f0) -> f_ncl f0 = length (f_classes f0) -> forest_predict c f x = Ok (FClass l avg, f') ->
  exists ps, votes f x ps /\ ps <> [] /\ length avg = length (f_classes f0) /\
    (forall j, j < length avg -> nth_error avg j = Some (mean (map (fun p => prob_of p j) ps))) /\
    (forall q, In q avg -> (0 <= q)%Qc /\ (q <= 1)%Qc) /\ total avg = 1%Qc /\
    exists i q, nth_error (map fst (f_classes f0)) i = Some l /\ nth_error avg i = Some q /\ forall q', In q' avg -> (q' <= q)%Qc.
Proof.
  intros IC GC NC H. destruct (votes_of _ _ _ H) as (ps & V & ts & ET). pose proof (votes_class x ps IC GC V) as VC. exists ps. split; auto.
  unfold forest_predict in H. rewrite ET in H. cbn [rbind] in H. rewrite IC in H. apply rbind_ok in H. destruct H as [rows [ER H]].
  destruct use_infos as (F & g1 & hh & infos & SD & IN & E1 & E2 & _). rewrite E1, E2, NC in *.
  set (k := length (f_classes f0)) in *.
  assert (RR : forall r, In r rows -> length r = k /\ qsum r = 1%Qc /\ forall q, In q r -> (0 <= q)%Qc /\ (q <= 1)%Qc).
  { intros r I. destruct (mapM_In _ _ _ _ ER I) as (p & IP & Q). rewrite Forall_forall in VC. destruct (VC p IP) as (l' & q' & -> & K1 & K2 & K3). cbn [probs_of] in Q. apply rbind_ok in Q. destruct Q as [u [_ Q]]. injection Q as <-. auto. }
  destruct rows as [|r0 rows0]; [apply rbind_ok in H; destruct H as [kk [_ H]]; apply ok_pair_inv in H; destruct H as [H _]; discriminate H|]. set (rows := r0 :: rows0) in *.
  assert (NE : rows <> []) by discriminate.
  apply rbind_ok in H. destruct H as [i [AM H]]. apply rbind_ok in H. destruct H as [l' [EL H]]. apply ok_pair_inv in H. destruct H as [H _]. injection H as <- <-. apply nth_res_ok in EL.
  destruct (mapM_probs _ _ _ ER) as [_ MP].
  assert (NP : ps <> []). { intros ->. cbn in ER. injection ER as ER. congruence. }
  rewrite col_means_length. split; auto. split; auto. split; [|split; [|split]].
  - intros j J. rewrite col_means_nth by auto. rewrite MP. reflexivity.
  - intros q I. unfold col_means in I. apply in_map_iff in I. destruct I as [j [<- J]]. apply in_seq in J. apply qmean_bounds.
    + destruct rows; [contradiction|discriminate].
    + intros y IY. apply in_map_iff in IY. destruct IY as [r [<- IR]]. destruct (RR r IR) as [LR [_ B]]. apply B. apply nth_In. lia.
  - change total with qsum. apply col_means_total; auto. intros r I. destruct (RR r I) as [? [? _]]. auto.
  - destruct (argmax_spec _ _ AM) as [m [A1 [A2 _]]]. exists i, m. split; auto. split; auto. intros q' I. apply In_nth_error in I. destruct I as [j J]. eauto.
Qed.

Lemma forest_label x l avg f' : fc_class c = true -> good_classes (f_classes f0) -> in_order (f_classes f0) -> f_ncl f0 = length (f_classes f0) -> forest_predict c f x = Ok (FClass l avg, f') ->
  exists i q, In (l, i) (f_classes f0) /\ nth_error avg i = Some q /\ forall q', In q' avg -> (q' <= q)%Qc.
Proof.
  intros IC GC IO NC H. destruct (forest_probabilities x l avg f' IC GC NC H) as (ps & _ & _ & _ & _ & _ & _ & i & q & L & Q & MX).
  exists i, q. split; auto. rewrite nth_error_map in L. destruct (nth_error (f_classes f0) i) as [[k j]|] eqn:E; [|discriminate]. cbn in L. injection L as ->.
  rewrite <- (IO _ _ _ E) at 1. eapply nth_error_In; eauto.
Qed.

Lemma preds_reg_map ps vs : preds_reg ps = Ok vs -> vs = map value_of ps.
Proof.
  unfold preds_reg. intros H. apply mapM_Forall2 in H. induction H as [|p v ps vs H FF IH]; auto. cbn. destruct p; [discriminate|]. injection H as <-. f_equal. exact IH.
Qed.

Lemma forest_mean x v f' : fc_class c = false -> fc_boosting c = false -> forest_predict c f x = Ok (FReg v, f') ->
  exists ps, votes f x ps /\ ps <> [] /\ v = mean (map value_of ps) /\
    forall L lo hi, fit_labels c f0 arg h0 = Some L -> length L = length data -> (forall y, In y L -> (lo <= y)%Qc /\ (y <= hi)%Qc) -> (lo <= v)%Qc /\ (v <= hi)%Qc.
Proof.
  intros IC BO H. destruct (votes_of _ _ _ H) as (ps & V & ts & ET). exists ps. split; auto.
  unfold forest_predict in H. rewrite ET in H. cbn [rbind] in H. rewrite IC in H. apply rbind_ok in H. destruct H as [vs [EV H]]. apply preds_reg_map in EV. rewrite BO in H.
  assert (VN : vs <> []). { intros ->. apply ok_pair_inv in H. destruct H as [H _]. discriminate H. }
  assert (EQ : v = qmean vs). { destruct vs; [contradiction|]. apply ok_pair_inv in H. destruct H as [H _]. injection H as <-. reflexivity. }
  split. { intros ->. apply VN. exact EV. } split; [rewrite EQ, EV; reflexivity|].
  intros L lo hi HL LL HB. rewrite EQ. apply qmean_bounds; auto. intros y I. rewrite EV in I. apply in_map_iff in I. destruct I as [p [<- IP]].
  destruct use_infos as (F & g1 & hh & infos & SD & IN & _). unfold votes in V. clear -V IN IP SD HL LL HB IC BO SR.
  revert V IP. generalize ps as qs. revert IN. generalize (f_trees f) as ts.
  intros ts IN. induction IN as [|ct a ts infos [I1 I2 I3 I4 I5] IN IH]; intros qs V IP; inversion V; subst; [destruct IP|]. destruct IP as [->|IP]; [|eapply IH; eauto].
  assert (NE : train_rows a <> []) by (apply (ao_some _ _ _ _ _ I3); exact SR). destruct (I4 BO) as (r & la & R1 & R2 & R3).
  pose proof (sd_labels _ _ _ _ _ _ _ _ SD (or_intror BO) _ _ R1 R2) as Q. rewrite HL in Q. injection Q as Q.
  destruct (grown_reg P M (fst ct) a (snd ct) I2 NE x p) as (w & -> & K); auto. { rewrite I1. exact IC. }
  cbn [value_of]. apply K. intros i I. rewrite R3, <- Q. apply HB, nth_In. rewrite LL. now apply (ao_rows _ _ _ _ _ I3).
Qed.

(** Boosted forests add the later trees' predictions times the learning rate. *)
Lemma forest_boosted x v f' : fc_class c = false -> fc_boosting c = true -> forest_predict c f x = Ok (FReg v, f') ->
  exists ps lr, votes f x ps /\ ps <> [] /\ fc_lr c = Some lr /\ v = boosted lr (map value_of ps).
Proof.
  intros IC BO H. destruct (votes_of _ _ _ H) as (ps & V & ts & ET). exists ps.
  unfold forest_predict in H. rewrite ET in H. cbn [rbind] in H. rewrite IC in H. apply rbind_ok in H. destruct H as [vs [EV H]]. apply preds_reg_map in EV. rewrite BO in H.
  destruct vs as [|w vs]; [discriminate H|]. apply rbind_ok in H. destruct H as [lr [EL H]]. apply opt_res_ok in EL. apply ok_pair_inv in H. destruct H as [H _]. injection H as <-.
  exists lr. split; auto. split. { intros ->. discriminate EV. } split; auto. rewrite <- EV. cbn [boosted]. clear. change total with qsum. revert w. induction vs as [|u vs IH]; intros w; cbn [fold_left qsum].
  - ring.
  - rewrite IH. ring.
Qed.
End Use.

(** Out-of-bag corollaries; importance, budget, seeds and criterion over the life of a forest. *)
From Coq Require Import List Arith Bool ZArith QArith Qcanon Lia Permutation Sorting.
From Verif Require Import Base Num Rng Histogram Utils Criteria Solvers Tree Forest Spec SolverSpec TreeSpec ForestSpec NumFacts ListFacts HistFacts HistAdd DrawFacts TreeFacts CountFacts TreeThms TreeMore ForestFacts ForestThms ForestMore ForestOob ForestMdi.
Import ListNotations.
Local Open Scope nat_scope.

Section Use.
Context (M : math) (P : prng) (c : fcfg) (f0 : forest) (arg : option (list (list Qc)) * option nat) (h0 : heap) (e0 : env) (f1 : forest) (h1 : heap) (e1 : env) (f : forest).
Context (HF : forest_fit M P c f0 arg h0 e0 = Ok (f1, h1, e1)) (HU : used c h1 f1 f).
Context (data : list (list Qc)) (HD : fit_data f0 arg = Some data) (SR : some_rows c (length data)).

(** ** C46 *)
Section Oob.
Context (BS : fc_bootstrap c = true) (OB : fc_oob c = true).
Context (h : heap) (d : option (list (list Qc))) (s : xn) (f' : forest) (HS : get_oob_score c f h d = Ok (s, f')).
Lemma oob_accuracy : fc_class c = true -> good_classes (f_classes f0) -> (forall k i, In (k, i) (f_classes f0) -> k = Nq i) ->
  exists r la V C, f_org f = Some r /\ nth_error h r = Some la /\ (forall i, i < length (la_vals la) -> oob_votes f (nth i (points data d) []) i (V i)) /\
    (forall i, In i (covered V (length (la_vals la))) -> exists j, oob_class V (length (f_classes f0)) i j /\ In (C i, j) (f_classes f0)) /\
    s = mean_over (covered V (length (la_vals la))) (fun i => if qeq (nth i (la_vals la) 0%Qc) (C i) then 1%Qc else 0%Qc).
Proof.
  intros IC GC KI. destruct (oob_score_spec M P c f0 arg h0 e0 f1 h1 e1 f HF HU data HD SR BS OB h d s f' HS (fun _ => GC)) as (r & la & V & E1 & E2 & E3 & E4). rewrite IC in E4.
  destruct E4 as (J & HJ & ->). exists r, la, V, (fun i => Nq (J i)). split; auto. split; auto. split; auto. split; auto.
  intros i I. exists (J i). split; auto. destruct (HJ i I) as (LJ & _). destruct GC as (G1 & G2 & G3).
  assert (X : In (J i) (map snd (f_classes f0))).
  { assert (IN : incl (seq 0 (length (f_classes f0))) (map snd (f_classes f0))).
    { apply NoDup_length_incl; auto; [rewrite seq_length, map_length; auto|]. intros k Ik. apply in_map_iff in Ik. destruct Ik as ([a b] & <- & Iab). cbn. apply in_seq. specialize (G3 a b Iab). lia. }
    apply IN, in_seq. lia. }
  apply in_map_iff in X. destruct X as ([a b] & Eb & Iab). cbn in Eb. subst b. rewrite <- (KI a (J i) Iab). exact Iab.
Qed.
Lemma oob_single : fc_class c = false -> (forall i, length (left_out f i) <= 1) ->
  exists r la V, f_org f = Some r /\ nth_error h r = Some la /\ (forall i, i < length (la_vals la) -> oob_votes f (nth i (points data d) []) i (V i)) /\ s = oob_mse V (la_vals la).
Proof.
  intros IC SG. destruct (oob_score_spec M P c f0 arg h0 e0 f1 h1 e1 f HF HU data HD SR BS OB h d s f' HS ltac:(congruence)) as (r & la & V & E1 & E2 & E3 & E4). rewrite IC in E4. exists r, la, V. split; auto. split; auto. split; auto.
  subst s. unfold oob_mse. apply mean_over_ext. intros i I. apply filter_In in I. destruct I as [I1 I2]. apply in_seq in I1. specialize (E3 i ltac:(lia)). unfold oob_votes in E3. pose proof (Forall2_len _ _ _ E3) as LV. specialize (SG i).
  destruct (V i) as [|v [|w l]]; [discriminate I2| |cbn in LV; lia]. cbn [map length]. replace (mean [value_of v] / Nq 1)%Qc with (mean [value_of v]); auto.
  unfold Qcdiv. replace (/ Nq 1)%Qc with 1%Qc by (apply Qc_is_canon; reflexivity). ring.
Qed.
End Oob.

(** ** C47, C48 *)
Lemma evaluated_profile l l' j : Forall2 profile l l' -> flat_map (gain_of j) l' = flat_map (gain_of j) l.
Proof. induction 1 as [|x y l l' (a & b & d & ->) F IH]; auto. cbn [flat_map]. rewrite IH. reflexivity. Qed.
Lemma evaluated_kept ts ts' j : kept ts ts' -> flat_map (fun ct => evaluated (snd ct) j) ts' = flat_map (fun ct => evaluated (snd ct) j) ts.
Proof.
  induction 1 as [|ct ct' ts ts' [E W] K IH]; auto. cbn [flat_map]. rewrite IH. f_equal. destruct (warmed_profile _ _ _ W) as (F & _). exact (evaluated_profile _ _ j F).
Qed.
Notation importance := (importance data).
Lemma mdg_like c' g g' x p : forest_predict c' g x = Ok (p, g') -> f_mdg g' = f_mdg g.
Proof. intros H. destruct (predict_like _ _ _ _ _ H) as [_ (ps & ts & _ & ->)]. reflexivity. Qed.
Lemma mdg_batch c' xs : forall g ps g', forest_predict_batch c' g xs = Ok (ps, g') -> f_mdg g' = f_mdg g.
Proof.
  induction xs as [|x xs IH]; intros g ps g' H; cbn [forest_predict_batch] in H; [apply ok_pair_inv in H; destruct H as [_ <-]; auto|].
  apply rbind_ok in H. destruct H as [[p g1] [E1 H]]. apply rbind_ok in H. destruct H as [[qs g2] [E2 H]]. cbn [fst snd] in *. apply ok_pair_inv in H. destruct H as [_ <-]. rewrite (IH _ _ _ E2). eapply mdg_like; eauto.
Qed.
Lemma mdg_oob c' g h d s g' : get_oob_score c' g h d = Ok (s, g') -> f_mdg g' = f_mdg g.
Proof.
  unfold get_oob_score. intros H. apply rbind_ok in H. destruct H as [? [_ H]]. apply rbind_ok in H. destruct H as [? [_ H]]. apply rbind_ok in H. destruct H as [? [_ H]]. apply rbind_ok in H. destruct H as [[acc ts] [_ H]].
  destruct (fc_class c'); [apply rbind_ok in H; destruct H as [? [_ H]]|]; apply ok_pair_inv in H; destruct H as [_ <-]; reflexivity.
Qed.
Lemma mdg_fit c' g a h e g' h' e' : forest_fit M P c' g a h e = Ok (g', h', e') -> f_mdg g' = f_mdg g.
Proof.
  intros H. destruct (fitted_forest _ _ _ _ _ _ _ _ _ _ H) as (data' & F & g1 & hh & s & infos & SD & -> & _ & V).
  destruct (fi_frame _ _ _ _ _ _ _ _ _ _ V) as (ts & b & q & o & g2 & ->). cbn. apply (sd_f1 _ _ _ _ _ _ _ _ SD).
Qed.
Lemma importance_here g : used c h1 f1 g -> f_mdg f0 = None -> match f_mdg g with Some arr => importance arr g | None => True end.
Proof.
  intros U Z. assert (Z1 : f_mdg f1 = None) by (rewrite (mdg_fit _ _ _ _ _ _ _ _ HF); auto). clear HU. assert (TR : forall arr a b, importance arr a -> kept (f_trees a) (f_trees b) -> importance arr b).
  { intros arr a b [I1 I2] K. split; auto. intros j v E. rewrite (I2 j v E). f_equal. symmetry. now apply evaluated_kept. }
  induction U as [a|a b b' x p U IH H|a b b' xs ps U IH H|a b b' d s U IH H|a b b' arr U IH H].
  - rewrite Z1. exact I.
  - rewrite (mdg_like _ _ _ _ _ H). destruct (f_mdg b); auto. eapply TR; [apply IH; auto|]. apply (predict_like _ _ _ _ _ H).
  - rewrite (mdg_batch _ _ _ _ _ H). destruct (f_mdg b); auto. eapply TR; [apply IH; auto|]. apply (predict_batch_like _ _ _ _ _ H).
  - rewrite (mdg_oob _ _ _ _ _ _ H). destruct (f_mdg b); auto. eapply TR; [apply IH; auto|]. apply (oob_like _ _ _ _ _ _ H).
  - destruct (f_mdg b) as [arr'|] eqn:E.
    + unfold calculate_mdi in H. rewrite E in H. apply ok_pair_inv in H. destruct H as [_ <-]. rewrite E. auto.
    + destruct (mdi_sum M P c f0 arg h0 e0 a h1 e1 b HF U data HD SR E) as (r0 & arr' & b2 & R1 & R2 & R3 & R4). rewrite R2 in H. apply ok_pair_inv in H. destruct H as [<- <-].
      assert (X : f_mdg b2 = Some arr' /\ f_trees b2 = f_trees b). { unfold calculate_mdi in R2. rewrite E in R2. apply rbind_ok in R2. destruct R2 as [? [_ Q]]. apply rbind_ok in Q. destruct Q as [? [_ Q]]. apply rbind_ok in Q. destruct Q as [? [_ Q]]. apply ok_pair_inv in Q. destruct Q as [-> <-]. auto. }
      destruct X as [-> X]. split; [eauto|]. rewrite X. auto.
Qed.
Lemma mdi_importance : f_mdg f0 = None -> exists arr f', calculate_mdi f = Ok (arr, f') /\ importance arr f.
Proof.
  intros Z. pose proof (importance_here f HU Z) as IH. destruct (f_mdg f) as [arr|] eqn:E.
  - exists arr, f. unfold calculate_mdi. rewrite E. auto.
  - destruct (mdi_sum M P c f0 arg h0 e0 f1 h1 e1 f HF HU data HD SR E) as (r0 & arr & f' & R1 & R2 & R3 & R4). exists arr, f'. split; auto. split; eauto.
Qed.
End Use.

(** The array computed first is returned for ever. *)
Lemma frozen M P c f f' arr : lives M P c f f' -> f_mdg f = Some arr -> calculate_mdi f' = Ok (arr, f').
Proof.
  intros H E. assert (G : f_mdg f' = Some arr); [|unfold calculate_mdi; rewrite G; reflexivity].
  induction H as [g|g a b ag h e h' e' U IH H|g a b x p U IH H|g a b xs ps U IH H|g a b h d s U IH H|g a b ar U IH H|g a bu U IH]; auto.
  - rewrite (mdg_fit _ _ _ _ _ _ _ _ _ _ H). auto.
  - rewrite (mdg_like _ _ _ _ _ H). auto.
  - rewrite (mdg_batch _ _ _ _ _ H). auto.
  - rewrite (mdg_oob _ _ _ _ _ _ H). auto.
  - unfold calculate_mdi in H. rewrite (IH E) in H. apply ok_pair_inv in H. destruct H as [_ <-]. auto.
Qed.
Lemma frozen_call M P c f arr f1 f' : calculate_mdi f = Ok (arr, f1) -> lives M P c f1 f' -> calculate_mdi f' = Ok (arr, f').
Proof.
  intros H U. eapply frozen; eauto. unfold calculate_mdi in H. destruct (f_mdg f) eqn:E; [apply ok_pair_inv in H; destruct H as [<- <-]; auto|].
  apply rbind_ok in H. destruct H as [? [_ Q]]. apply rbind_ok in Q. destruct Q as [? [_ Q]]. apply rbind_ok in Q. destruct Q as [? [_ Q]]. apply ok_pair_inv in Q. destruct Q as [-> <-]. auto.
Qed.

(** ** C49 *)
Lemma after_reset M P c f b arg h e f' h' e' : forest_fit M P c (forest_reset c f b) arg h e = Ok (f', h', e') ->
  (exists d r, arg = (Some d, Some r)) /\ f_queries f' = spent (f_trees f') /\
  match f_budget f with
  | None => f_budget f' = None /\ length (f_trees f') = fc_n c
  | Some k => f_budget f' = Some (k - Z.of_nat (f_queries f'))%Z
  end.
Proof.
  intros H. destruct (fitted_forest _ _ _ _ _ _ _ _ _ _ H) as (data & F & g1 & hh & s & infos & SD & -> & _ & V). destruct (sd_f1 _ _ _ _ _ _ _ _ SD) as (S1 & S2 & S3 & S4 & S5 & S6 & S7 & S8).
  pose proof (fi_queries _ _ _ _ _ _ _ _ _ _ V) as Q. rewrite S6 in Q. cbn in Q. split; [|split; auto].
  - pose proof (sd_data _ _ _ _ _ _ _ _ SD) as D. unfold fit_data in D. destruct arg as [[d|] [r|]]; cbn in D; try discriminate D; eauto. unfold forest_fit in H. cbn [rbind] in H. discriminate H.
  - pose proof (fi_budget _ _ _ _ _ _ _ _ _ _ V) as B. rewrite S5 in B. cbn in B. destruct (f_budget f) as [k|] eqn:EB.
    + destruct B as [B _]. now rewrite Q.
    + split; auto. destruct (fi_count _ _ _ _ _ _ _ _ _ _ V) as (C1 & C2 & C3). rewrite (Forall2_len _ _ _ (fi_trees _ _ _ _ _ _ _ _ _ _ V)). apply C2, C3. rewrite S5. exact EB.
Qed.
Lemma reset_ignores_budget c f b b' : forest_reset c f b = forest_reset c f b'.
Proof. reflexivity. Qed.

(** ** C50 *)
Lemma new_reproducible P c data labels classes budget h e e' f g : e_gen e = e_gen e' -> same_memory e e' -> forest_new P c data labels classes budget h e = Ok (f, g) ->
  forest_new P c data labels classes budget h e' = Ok (f, g).
Proof.
  intros EG [EM EC] H. unfold forest_new in *. apply rbind_ok in H. destruct H as [cls [E1 H]]. rewrite E1. cbn [rbind]. replace (set_seed P (fc_seed c) e') with (set_seed P (fc_seed c) e); auto.
  unfold set_seed, set_py, set_np. cbn. congruence.
Qed.

(** ** C51 *)
Lemma criterion_ignored M P c m s f arg h e : forest_fit M P (with_criterion c m s) f arg h e = forest_fit M P c f arg h e.
Proof. reflexivity. Qed.

(** ** The dictionary a classifier builds for itself *)
Lemma class_dict_good l : good_classes (class_to_idx (unique l)) /\ in_order (class_to_idx (unique l)).
Proof.
  unfold class_to_idx. pose proof (unique_nodup l) as ND. revert ND. generalize (unique l). intros u ND.
  assert (F : map fst (combine u (seq 0 (length u))) = u) by (apply map_fst_combine; rewrite seq_length; lia). assert (S : map snd (combine u (seq 0 (length u))) = seq 0 (length u)) by (apply map_snd_combine; rewrite seq_length; lia).
  assert (O : in_order (combine u (seq 0 (length u)))).
  { intros i k j E. assert (Q : nth_error (map snd (combine u (seq 0 (length u)))) i = Some j) by (rewrite nth_error_map, E; reflexivity). rewrite S in Q. assert (L : i < length u) by (rewrite <- (seq_length (length u) 0); apply nth_error_Some; congruence). apply (nth_error_nth _ _ 0) in Q. rewrite seq_nth in Q by exact L. now symmetry. }
  split; auto. split; [now rewrite F|]. split; [rewrite S; apply seq_NoDup|].
  intros k i I. apply In_nth_error in I. destruct I as [n E]. pose proof (O _ _ _ E). subst i. apply nth_error_Some. congruence.
Qed.
Lemma new_classes P c data r budget h e f e1 : fc_class c = true -> forest_new P c data (Some r) None budget h e = Ok (f, e1) ->
  exists la, nth_error h r = Some la /\ good_classes (f_classes f) /\ in_order (f_classes f) /\ f_ncl f = length (f_classes f) /\
    forall y, In y (map fst (f_classes f)) <-> In y (la_vals la).
Proof.
  intros IC H. unfold forest_new in H. rewrite IC in H. apply rbind_ok in H. destruct H as [cls [E H]]. apply rbind_ok in E. destruct E as [la [E1 E]]. apply nth_res_ok in E1.
  assert (Q : cls = (class_to_idx (unique (la_vals la)), length (class_to_idx (unique (la_vals la))))) by congruence. subst cls. clear E.
  apply rbind_ok in H. destruct H as [? [_ H]]. apply rbind_ok in H. destruct H as [? [_ H]]. apply rbind_ok in H. destruct H as [? [_ H]]. apply ok_pair_inv in H. destruct H as [<- _]. cbn [f_classes f_ncl fst snd].
  exists la. split; auto. destruct (class_dict_good (la_vals la)) as [G O]. split; auto. split; auto. split; auto.
  intros y. unfold class_to_idx. rewrite map_fst_combine by (rewrite seq_length; lia). apply unique_in.
Qed.

(** ** The criterion of the trees *)
Lemma tree_criteria M P c f arg h e f1 h1 e1 : forest_fit M P c f arg h e = Ok (f1, h1, e1) -> forall ct, In ct (f_trees f1) -> tc_crit (fst ct) = (if fc_class c then GINI else MSE) /\ tc_splitter (fst ct) = BEST.
Proof.
  intros H ct I. assert (D : exists data, fit_data f arg = Some data).
  { destruct (fitted_forest _ _ _ _ _ _ _ _ _ _ H) as (data' & F & g1 & hh & s & infos & SD & _). exists data'. apply (sd_data _ _ _ _ _ _ _ _ SD). }
  destruct D as [data D]. destruct (use_infos M P c f arg h e f1 h1 e1 f1 H (used_not _ _ _) data D) as (F & g1 & hh & infos & SD & IN & _). clear - I IN.
  induction IN as [|ct' a ts infos [I1 I2 I3 I4 I5] IN IH]; [destruct I|]. destruct I as [<-|I]; auto. rewrite I1. split; reflexivity.
Qed.

Lemma only_boosting M P c f0 arg h0 e0 f1 h1 e1 : forest_fit M P c f0 arg h0 e0 = Ok (f1, h1, e1) ->
  forall r, r < length h0 -> nth_error h1 r <> nth_error h0 r -> fc_boosting c = true /\ fc_class c = false /\ boost_ref f0 arg = Some r.
Proof.
  intros H r L D. destruct (labels_untouched _ _ _ _ _ _ _ _ _ _ H) as [U1 U2]. destruct (fc_boosting c); [|exfalso; apply D, U1; auto]. destruct (fc_class c); [exfalso; apply D, U1; auto|]. split; auto. split; auto.
  destruct (boost_ref f0 arg) as [r'|] eqn:E; [|exfalso; apply D, U2; auto; discriminate]. destruct (Nat.eq_dec r' r) as [->|N]; auto. exfalso. apply D, U2; auto. congruence.
Qed.

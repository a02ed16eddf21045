(** Order of trees, batches, boosting, aliasing, budget, out-of-bag lists. *)
From Coq Require Import List Arith Bool ZArith QArith Qcanon Lia Permutation Sorted.
From Verif Require Import Base Num Rng Histogram Utils Criteria Solvers Tree Forest Spec SolverSpec TreeSpec ForestSpec NumFacts ListFacts DrawFacts TreeFacts CountFacts TreeThms ForestFacts ForestThms.
Import ListNotations.
Local Open Scope nat_scope.

(** ** Permuting the trees *)
Lemma Forall2_perm {A B} (R : A -> B -> Prop) l l' : Permutation l l' -> forall m, Forall2 R l m -> exists m', Permutation m m' /\ Forall2 R l' m'.
Proof.
  induction 1 as [|x l l' H IH|x y l|l l1 l2 H1 IH1 H2 IH2]; intros m F.
  - inversion F; subst. exists []. auto.
  - inversion F; subst. destruct (IH _ H4) as [m' [P1 P2]]. exists (y :: m'). split; [now constructor|now constructor].
  - inversion F; subst. inversion H3; subst. eexists (y1 :: y0 :: l'0). split; [constructor|]. repeat constructor; auto.
  - destruct (IH1 _ F) as [m1 [P1 F1]]. destruct (IH2 _ F1) as [m2 [P2 F2]]. exists m2. split; auto. eapply Permutation_trans; eauto.
Qed.
Lemma mapM_of_Forall2 {A B} (g : A -> res B) l m : Forall2 (fun a b => g a = Ok b) l m -> mapM g l = Ok m.
Proof. induction 1; cbn; auto. rewrite H. cbn. rewrite IHForall2. reflexivity. Qed.
Lemma mapM_perm {A B} (g : A -> res B) l l' m : Permutation l l' -> mapM g l = Ok m -> exists m', Permutation m m' /\ mapM g l' = Ok m'.
Proof.
  intros PM H. apply mapM_Forall2 in H. destruct (Forall2_perm _ _ _ PM _ H) as [m' [P1 P2]]. exists m'. split; auto. now apply mapM_of_Forall2.
Qed.

Lemma order_irrelevant c f ts x p f' : fc_boosting c = false -> Permutation (f_trees f) ts -> forest_predict c f x = Ok (p, f') ->
  exists f2, forest_predict c (set_trees f ts) x = Ok (p, f2).
Proof.
  intros BO PM H. unfold forest_predict in *. apply rbind_ok in H. destruct H as [[ps us] [ET H]]. destruct (trees_predict_spec x _ _ _ ET) as [V _].
  destruct (Forall2_perm _ _ _ PM _ V) as [ps' [P1 V']]. destruct (trees_predict_total x _ _ V') as [us' ET']. change (f_trees (set_trees f ts)) with ts. rewrite ET'. cbn [rbind].
  change (f_ncl (set_trees f ts)) with (f_ncl f). change (f_classes (set_trees f ts)) with (f_classes f). destruct (fc_class c).
  - apply rbind_ok in H. destruct H as [rows [ER H]]. destruct (mapM_perm _ _ _ _ P1 ER) as [rows' [P2 ER']]. rewrite ER'. cbn [rbind].
    destruct rows as [|r0 rows].
    + apply Permutation_nil in P2. subst rows'. apply rbind_ok in H. destruct H as [k [EK H]]. apply ok_pair_inv in H. destruct H as [<- _]. rewrite EK. cbn. eauto.
    + destruct rows' as [|r0' rows']; [apply Permutation_sym, Permutation_nil in P2; discriminate|].
      rewrite <- (col_means_perm _ _ _ P2). apply rbind_ok in H. destruct H as [i [EI H]]. apply rbind_ok in H. destruct H as [l [EL H]]. apply ok_pair_inv in H. destruct H as [<- _].
      rewrite EI. cbn [rbind]. rewrite EL. cbn [rbind]. eauto.
  - apply rbind_ok in H. destruct H as [vs [EV H]]. unfold preds_reg in EV. destruct (mapM_perm _ _ _ _ P1 EV) as [vs' [P2 EV']]. unfold preds_reg. rewrite EV'. cbn [rbind]. rewrite BO in *.
    destruct vs as [|v vs].
    + apply Permutation_nil in P2. subst vs'. apply ok_pair_inv in H. destruct H as [<- _]. eauto.
    + destruct vs' as [|v' vs']; [apply Permutation_sym, Permutation_nil in P2; discriminate|]. apply ok_pair_inv in H. destruct H as [<- _]. eexists. f_equal. f_equal. f_equal.
      unfold qmean. rewrite (Permutation_length P2). f_equal. symmetry. now apply qsum_perm.
Qed.

(** ** Batches *)
Definition steady (ts : list (tcfg * tree)) : Prop :=
  Forall (fun ct => forall t' x, warmed (fst ct) (snd ct) t' -> answer (tree_predict (fst ct) t' x) = answer (tree_predict (fst ct) (snd ct) x)) ts.
Lemma steady_kept ts ts' : steady ts -> kept ts ts' -> steady ts'.
Proof.
  intros S K. unfold steady in *. induction K as [|ct ct' ts ts' [E W] K IH]; constructor; inversion S; subst; auto. intros t' x W'. rewrite E in *.
  rewrite (H1 (snd ct') x W). apply H1. eapply warmed_trans; eauto.
Qed.
Lemma steady_answers ts ts' x : steady ts -> kept ts ts' -> answer (trees_predict ts' x) = answer (trees_predict ts x).
Proof.
  intros S K. unfold steady in *. induction K as [|[tc t] [tc' t'] ts ts' [E W] K IH]; auto. inversion S; subst. cbn [fst snd] in *. subst tc'. specialize (IH H2). specialize (H1 t' x W).
  cbn [trees_predict]. destruct (tree_predict tc t x) as [[p u]|e1], (tree_predict tc t' x) as [[p' u']|e2]; cbn [answer] in H1; try discriminate H1; cbn [rbind].
  - injection H1 as ->. destruct (trees_predict ts x) as [[qs us]|e1], (trees_predict ts' x) as [[qs' us']|e2]; cbn [answer] in IH; try discriminate IH; cbn [rbind answer fst snd]; congruence.
  - cbn. congruence.
Qed.
Lemma forest_answer_trees c f x : answer (forest_predict c f x) =
  do ps <- answer (trees_predict (f_trees f) x);
  if fc_class c then
    do rows <- mapM (probs_of (f_ncl f)) ps;
    match rows with
    | [] => do k <- nth_res (map fst (f_classes f)) 0; Ok (FNanClass k)
    | _ => do i <- argmax (col_means (f_ncl f) rows); do l <- nth_res (map fst (f_classes f)) i; Ok (FClass l (col_means (f_ncl f) rows))
    end
  else
    do vs <- preds_reg ps;
    if fc_boosting c then
      match vs with [] => Err UnboundLocalError | v :: rest => do lr <- opt_res (fc_lr c) TypeError; Ok (FReg (fold_left (fun a p => (a + lr * p)%Qc) rest v)) end
    else match vs with [] => Ok FNanReg | _ => Ok (FReg (qmean vs)) end.
Proof.
  unfold forest_predict. destruct (trees_predict (f_trees f) x) as [[ps ts]|]; cbn [rbind answer]; auto. destruct (fc_class c).
  - destruct (mapM (probs_of (f_ncl f)) ps) as [rows|]; cbn [rbind answer]; auto. destruct rows as [|r rows].
    + destruct (nth_res (map fst (f_classes f)) 0); cbn; auto.
    + destruct (argmax (col_means (f_ncl f) (r :: rows))) as [i|]; cbn [rbind answer]; auto. destruct (nth_res (map fst (f_classes f)) i); cbn; auto.
  - destruct (preds_reg ps) as [vs|]; cbn [rbind answer]; auto. destruct (fc_boosting c).
    + destruct vs; auto. destruct (fc_lr c); cbn; auto.
    + destruct vs; auto.
Qed.
Lemma like_answer c f f' x : steady (f_trees f) -> like f f' -> answer (forest_predict c f' x) = answer (forest_predict c f x).
Proof.
  intros S [K (L1 & L2 & L3 & L4 & L5 & _)]. rewrite !forest_answer_trees, L4, L5, (steady_answers _ _ x S K). reflexivity.
Qed.
Lemma batch_pointwise c xs : forall f, steady (f_trees f) -> answer (forest_predict_batch c f xs) = mapM (fun x => answer (forest_predict c f x)) xs.
Proof.
  induction xs as [|x xs IH]; intros f S; cbn [forest_predict_batch mapM]; auto. destruct (forest_predict c f x) as [[p f1]|] eqn:E; cbn [rbind answer fst snd]; auto.
  destruct (predict_like _ _ _ _ _ E) as [LK _]. pose proof (steady_kept _ _ S (lk_trees _ _ LK)) as S1. specialize (IH f1 S1).
  assert (EQ : mapM (fun x => answer (forest_predict c f1 x)) xs = mapM (fun x => answer (forest_predict c f x)) xs).
  { apply mapM_ext. intros y _. now apply like_answer. }
  rewrite EQ in IH. destruct (forest_predict_batch c f1 xs) as [[qs f2]|]; cbn [rbind answer fst snd] in *; rewrite <- IH; reflexivity.
Qed.

Lemma infos_steady M P c data F f1 h1 ts infos : some_rows c (length data) -> Forall2 (info M P c data F f1 h1) ts infos -> steady ts.
Proof.
  intros SR H. unfold steady. induction H as [|ct a ts infos [I1 I2 I3 I4 I5] H IH]; constructor; auto. intros t' x W. eapply grown_same; eauto. now apply (ao_some _ _ _ _ _ I3).
Qed.

Section Use.
Context (M : math) (P : prng) (c : fcfg) (f0 : forest) (arg : option (list (list Qc)) * option nat) (h0 : heap) (e0 : env) (f1 : forest) (h1 : heap) (e1 : env) (f : forest).
Context (HF : forest_fit M P c f0 arg h0 e0 = Ok (f1, h1, e1)) (HU : used c h1 f1 f).
Context (data : list (list Qc)) (HD : fit_data f0 arg = Some data) (SR : some_rows c (length data)).

Lemma used_steady : steady (f_trees f).
Proof. destruct (use_infos M P c f0 arg h0 e0 f1 h1 e1 f HF HU data HD) as (F & g1 & hh & infos & SD & IN & _). eapply infos_steady; eauto. Qed.
Lemma forest_batch_pointwise xs : answer (forest_predict_batch c f xs) = mapM (fun x => answer (forest_predict c f x)) xs.
Proof. apply batch_pointwise, used_steady. Qed.
Lemma forest_memoryless x : answer (forest_predict c f x) = answer (forest_predict c f1 x).
Proof.
  apply like_answer; [|eapply used_like; eauto].
  destruct (use_infos M P c f0 arg h0 e0 f1 h1 e1 f1 HF (used_not _ _ _) data HD) as (F & g1 & hh & infos & SD & IN & _). eapply infos_steady; eauto.
Qed.

(** predict answers on every long enough point. *)
Lemma forest_answers x : (forall r0, nth_error data 0 = Some r0 -> length r0 <= length x) ->
  (fc_class c = true -> good_classes (f_classes f0) /\ f_classes f0 <> [] /\ f_ncl f0 = length (f_classes f0)) ->
  (fc_class c = false -> fc_boosting c = true -> fc_lr c <> None /\ f_trees f <> []) ->
  exists p f', forest_predict c f x = Ok (p, f').
Proof.
  intros W CL BO. destruct (use_infos M P c f0 arg h0 e0 f1 h1 e1 f HF HU data HD) as (F & g1 & hh & infos & SD & IN & E1 & E2 & _).
  destruct (sd_F _ _ _ _ _ _ _ _ SD) as [r0 [R0 RF]]. specialize (W r0 R0).
  assert (V : exists ps, votes f x ps).
  { unfold votes. clear E1 E2 BO. revert IN. generalize (f_trees f) as ts. intros ts IN. induction IN as [|ct a ts infos [I1 I2 I3 I4 I5] IN [ps IH]]; [exists []; constructor|].
    assert (NE : train_rows a <> []) by (apply (ao_some _ _ _ _ _ I3); exact SR).
    destruct (grown_fresh P M (fst ct) a (snd ct) I2 NE x) as (e & t0 & B & EQ).
    destruct (fitted_answers P M (fst ct) a e t0 B NE x) as (p & t' & A).
    - rewrite I1. cbn [tree_cfg tc_class tc_classes]. intros IC. destruct (sd_f1 _ _ _ _ _ _ _ _ SD) as (_ & _ & -> & _). now apply CL.
    - intros g I. pose proof (ao_feats _ _ _ _ _ I3 g I). lia.
    - exists (p :: ps). constructor; auto. rewrite EQ, A. reflexivity. }
  destruct V as [ps V]. destruct (trees_predict_total x _ _ V) as [ts ET].
  assert (G : exists p, answer (forest_predict c f x) = Ok p).
  { rewrite forest_answer_trees, ET, E1, E2. cbn [answer rbind]. destruct (fc_class c) eqn:IC.
    - destruct (CL eq_refl) as (GC & NC & LC). pose proof (votes_class M P c f0 arg h0 e0 f1 h1 e1 f HF HU data HD SR x ps IC GC V) as VC.
      assert (ER : exists rows, mapM (probs_of (f_ncl f0)) ps = Ok rows).
      { apply mapM_total. intros p IP. rewrite Forall_forall in VC. destruct (VC p IP) as (l & q & -> & K & _). cbn. rewrite LC, K, Nat.eqb_refl. cbn. eauto. }
      destruct ER as [rows ER]. rewrite ER. cbn [rbind]. assert (NL : 0 < length (f_classes f0)) by (destruct (f_classes f0); [contradiction|cbn; lia]). destruct rows as [|r rows].
      + destruct (nth_res_lt (map fst (f_classes f0)) 0) as [k EK]; [now rewrite map_length|]. rewrite EK. cbn. eauto.
      + assert (CM : exists i, argmax (col_means (f_ncl f0) (r :: rows)) = Ok i).
        { destruct (col_means (f_ncl f0) (r :: rows)) eqn:EC; [|cbn; eauto]. apply (f_equal (@length Qc)) in EC. rewrite col_means_length in EC. cbn in EC. lia. }
        destruct CM as [i CM]. rewrite CM. cbn [rbind]. destruct (argmax_spec _ _ CM) as [m [A1 _]]. assert (IL : i < length (f_classes f0)). { rewrite <- LC, <- (col_means_length (f_ncl f0) (r :: rows)). apply nth_error_Some. congruence. }
        destruct (nth_res_lt (map fst (f_classes f0)) i) as [k EK]; [now rewrite map_length|]. rewrite EK. cbn. eauto.
    - pose proof (votes_reg M P c f0 arg h0 e0 f1 h1 e1 f HF HU data HD SR x ps IC V) as VR.
      assert (EV : exists vs, preds_reg ps = Ok vs). { apply mapM_total. intros p IP. rewrite Forall_forall in VR. destruct (VR p IP) as [v ->]. eauto. }
      destruct EV as [vs EV]. rewrite EV. cbn [rbind]. destruct (fc_boosting c).
      + destruct (BO eq_refl eq_refl) as [LR NT]. destruct vs as [|v vs].
        * exfalso. apply NT. apply mapM_length in EV. destruct ps; [|discriminate EV]. inversion V. auto.
        * destruct (fc_lr c); [cbn; eauto|contradiction].
      + destruct vs; eauto. }
  destruct G as [p G]. apply answer_ok in G. destruct G as [f' G]. eauto.
Qed.
End Use.

(** ** The boosting residual *)
Lemma boosted_snoc lr vs v : boosted lr (vs ++ [v]) = (boosted lr vs + (if length vs =? 0 then v else v * lr))%Qc.
Proof.
  destruct vs as [|w vs]; cbn [app boosted length Nat.eqb].
  - change total with qsum. cbn [qsum]. ring.
  - change total with qsum. rewrite qsum_app. cbn [qsum]. ring.
Qed.
Lemma take_all {A} (l : list A) d n l' : take_idx l (arange n) = Ok l' -> l' = map (fun i => nth i l d) (arange n) /\ n <= length l.
Proof.
  intros H. destruct (take_idx_nth l d _ _ H) as [-> K]. split; auto. destruct n; [lia|]. assert (In n (arange (S n))) by (apply arange_in; lia). specialize (K _ H0). lia.
Qed.
Lemma fold_set_nth (g : nat -> Qc) n : forall l k, k + n <= length l ->
  let l' := fold_left (fun l iv => set_nth (fst iv) (snd iv) l) (combine (seq k n) (map g (seq k n))) l in
  length l' = length l /\ (forall i, k <= i < k + n -> nth i l' 0%Qc = g i) /\ (forall i, i < k -> nth i l' 0%Qc = nth i l 0%Qc).
Proof.
  induction n as [|n IH]; intros l k L; cbn [seq map combine fold_left].
  - split; auto. split; [intros; lia|auto].
  - cbn [fst snd]. destruct (IH (set_nth k (g k) l) (S k)) as [J1 [J2 J3]]; [rewrite set_nth_length; lia|]. cbn zeta in *.
    assert (NS : forall i, i < length l -> nth i (set_nth k (g k) l) 0%Qc = if i =? k then g k else nth i l 0%Qc).
    { intros i LI. pose proof (set_nth_nth k (g k) l i) as Q. destruct (i =? k) eqn:EI.
      - apply Nat.eqb_eq in EI. subst i. destruct (nth_error l k) eqn:EK; [|apply nth_error_None in EK; lia].
        rewrite (nth_error_nth _ _ 0%Qc Q). auto.
      - rewrite (nth_error_nth' l 0%Qc LI) in Q. apply nth_error_nth with (d := 0%Qc) in Q. exact Q. }
    rewrite set_nth_length in J1. split; auto. split.
    + intros i LI. destruct (Nat.eq_dec i k) as [->|NQ]; [|apply J2; lia]. rewrite J3 by lia. rewrite NS by lia. now rewrite Nat.eqb_refl.
    + intros i LI. rewrite J3 by lia. rewrite NS by lia. destruct (Nat.eqb_spec i k); [lia|auto].
Qed.

Lemma boost_all c i tc t0 data newr h t h' ys P M a e : built P M tc a e t0 -> train_rows a <> [] ->
  boost c i tc t0 data (arange (length data)) newr h = Ok (t, h') -> nth_error h newr = Some {| la_int := false; la_vals := ys |} ->
  exists vs lr, fc_lr c = Some lr /\ length vs = length data /\ length data <= length ys /\
    (forall j, j < length data -> answer (tree_predict tc t (nth j data [])) = Ok (PReg (nth j vs 0%Qc))) /\
    exists ys', nth_error h' newr = Some {| la_int := false; la_vals := ys' |} /\ length ys' = length ys /\
      (forall j, j < length data -> nth j ys' 0%Qc = (nth j ys 0 - (if i =? 0 then nth j vs 0 else nth j vs 0 * lr))%Qc).
Proof.
  intros B NE H HA. unfold boost in H. apply rbind_ok in H. destruct H as [rows [E1 H]]. apply rbind_ok in H. destruct H as [[ps t'] [E2 H]]. apply rbind_ok in H. destruct H as [vs [E3 H]].
  apply rbind_ok in H. destruct H as [lr [E4 H]]. apply rbind_ok in H. destruct H as [ar [E5 H]]. apply rbind_ok in H. destruct H as [old [E6 H]]. apply rbind_ok in H. destruct H as [xs [E7 H]].
  apply rbind_ok in H. destruct H as [h2 [E8 H]]. cbn [fst snd] in *. apply ok_pair_inv in H. destruct H as [<- <-]. apply opt_res_ok in E4. apply nth_res_ok in E5. rewrite HA in E5. injection E5 as <-. cbn [la_vals] in *.
  destruct (take_all data [] _ _ E1) as [ER _]. assert (RD : rows = data).
  { rewrite ER. apply list_ext. intros j. rewrite nth_error_map. unfold arange. destruct (le_lt_dec (length data) j).
    - rewrite (proj2 (nth_error_None data j)) by auto. rewrite (proj2 (nth_error_None (seq 0 (length data)) j)); auto. now rewrite seq_length.
    - rewrite (nth_error_nth' (seq 0 (length data)) 0) by now rewrite seq_length. rewrite seq_nth by auto. cbn. symmetry. now apply nth_error_nth'. }
  rewrite RD in E2. clear E1 ER RD rows. destruct (take_all ys 0%Qc _ _ E6) as [EO LO].
  pose proof (fitted_batch_pointwise P M tc a e t0 B NE data ps t' E2) as BP. apply mapM_Forall2 in BP. pose proof (mapM_length _ _ _ E3) as LV.
  pose proof (Forall2_len _ _ _ BP) as LP. assert (LVD : length vs = length data) by lia.
  assert (PV : forall j, j < length data -> nth_error ps j = Some (PReg (nth j vs 0%Qc))).
  { intros j J. pose proof (preds_reg_map _ _ E3) as EV. unfold preds_reg in E3. assert (J' : j < length ps) by lia. destruct (nth_error ps j) as [p|] eqn:EP; [|apply nth_error_None in EP; lia].
    destruct (mapM_nth' _ _ _ _ _ E3 EP) as (v & EV1 & EV2). destruct p as [l q|v']; [discriminate|]. rewrite (nth_error_nth _ _ 0%Qc EV1). congruence. }
  exists vs, lr. split; auto. split; auto. split; [exact LO|]. split.
  - intros j J. rewrite (fitted_memoryless P M tc a e t0 B NE data ps t' _ E2). destruct (Forall2_nth _ _ _ j _ BP (nth_error_nth' data [] J)) as (p & EP & AP). rewrite PV in EP by auto. congruence.
  - set (vs' := if i =? 0 then vs else map (fun p => (p * lr)%Qc) vs) in *.
    assert (EX : map nan_to_num xs = map (fun j => (nth j ys 0 - nth j vs' 0)%Qc) (arange (length data))).
    { assert (LV' : length vs' = length data) by (unfold vs'; destruct (i =? 0); rewrite ?map_length; auto).
      assert (XS : xs = map (fun tp => Fin (fst tp - snd tp)%Qc) (combine old vs')).
      { apply (mapM_ok_map _ (fun tp => Fin (fst tp - snd tp)%Qc)) in E7; auto. intros tp y _ Q. cbn in Q. injection Q as <-. reflexivity. }
      rewrite XS, map_map. cbn [nan_to_num]. rewrite EO. apply list_ext. intros j. rewrite !nth_error_map, combine_nth_error, nth_error_map. unfold arange.
      destruct (le_lt_dec (length data) j).
      - rewrite (proj2 (nth_error_None (seq 0 (length data)) j)) by now rewrite seq_length. reflexivity.
      - rewrite (nth_error_nth' (seq 0 (length data)) 0) by now rewrite seq_length. rewrite seq_nth by auto. cbn [option_map Nat.add]. rewrite (nth_error_nth' vs' 0%Qc) by lia. reflexivity. }
    rewrite EX in E8. unfold store in E8. unfold nth_res in E8. rewrite HA in E8. cbn [rbind la_vals la_int] in E8. apply rbind_ok in E8. destruct E8 as [u [_ E8]]. injection E8 as <-.
    eexists. split; [rewrite set_nth_nth, Nat.eqb_refl, HA; reflexivity|].
    destruct (fold_set_nth (fun j => (nth j ys 0 - nth j vs' 0)%Qc) (length data) ys 0 LO) as [F1 [F2 _]]. cbn zeta in *. unfold arange. split; auto. intros j J. rewrite F2 by lia. f_equal. f_equal.
    unfold vs'. destruct (i =? 0); auto. rewrite <- (map_nth (fun p => (p * lr)%Qc) vs). f_equal. ring.
Qed.

Section Residual.
Context (M : math) (P : prng) (c : fcfg) (data : list (list Qc)) (F : nat) (g1 : forest) (h1 : heap) (newr : nat) (ys : list Qc) (lr : Qc).
Context (AR : all_rows c) (IC : fc_class c = false) (BO : fc_boosting c = true) (LR : fc_lr c = Some lr) (NR : f_new g1 = Some newr) (NP : 1 <= length data).

Definition residual (s : fstate) : Prop :=
  exists ys', nth_error (fs_h s) newr = Some {| la_int := false; la_vals := ys' |} /\ length ys' = length ys /\
    forall j, j < length data -> exists vs, votes (fs_f s) (nth j data []) (map PReg vs) /\ (nth j ys' 0 + boosted lr vs = nth j ys 0)%Qc.

Lemma residual_step s k infos s' : finv M P c data F g1 h1 s k infos -> residual s -> fit_tree M P c data F s k = Ok s' -> residual s'.
Proof.
  intros V [ys' [R1 [R2 R3]]] H. destruct (fs_stop s) eqn:ST.
  - unfold fit_tree in H. rewrite ST in H. injection H as <-. exists ys'. auto.
  - destruct (fi_frame _ _ _ _ _ _ _ _ _ _ V) as (ts & b & q & o & g & FR). destruct (fi_count _ _ _ _ _ _ _ _ _ _ V) as [_ [CN _]]. specialize (CN ST). pose proof (Forall2_len _ _ _ (fi_trees _ _ _ _ _ _ _ _ _ _ V)) as LT.
    destruct (fit_tree_cases M P c data F s k s' H ST) as [(S' & HH & BN & gen & oob & E & O)|(S' & a & t0 & t & e0 & gen & r & newr' & la & E & BU & AO & TB & LB & NL & TL & FN & KT & BP & BST)].
    + exists ys'. rewrite HH, E. auto.
    + rewrite BO in BST. rewrite FR in FN. change (f_new g1 = Some newr') in FN. assert (newr' = newr) by congruence. subst newr'.
      destruct (ao_all _ _ _ _ _ AO AR) as [AR1 _]. rewrite AR1 in BST.
      assert (NE : train_rows a <> []). { rewrite AR1. intros Z. apply (f_equal (@length nat)) in Z. unfold arange in Z. rewrite seq_length in Z. cbn in Z. lia. }
      destruct (boost_all _ _ _ _ _ _ _ _ _ _ _ _ _ _ BU NE BST R1) as (vs & lr' & L1 & L2 & L3 & L4 & ys2 & Y1 & Y2 & Y3). assert (lr' = lr) by congruence. subst lr'.
      exists ys2. split; auto. split; [congruence|]. intros j J. destruct (R3 j J) as (ws & W1 & W2). exists (ws ++ [nth j vs 0%Qc]). split.
      * unfold votes. rewrite E. cbn [f_trees upd_forest]. rewrite map_app. apply Forall2_app; [exact W1|]. constructor; [|constructor]. cbn [fst snd]. now apply L4.
      * rewrite boosted_snoc, Y3 by auto. rewrite <- W2. assert (LW : length ws = k). { pose proof (Forall2_len _ _ _ W1) as Q. rewrite map_length in Q. lia. } rewrite LW. ring.
Qed.
Lemma residual_loop n : forall k s infos s', finv M P c data F g1 h1 s k infos -> residual s -> foldM (fit_tree M P c data F) s (seq k n) = Ok s' -> residual s'.
Proof.
  induction n as [|n IH]; intros k s infos s' V R H; cbn [seq foldM] in H.
  - injection H as <-. auto.
  - apply rbind_ok in H. destruct H as [s1 [E H]]. destruct (finv_step _ _ _ _ _ _ _ _ _ _ _ V E) as [infos1 V1]. pose proof (residual_step _ _ _ _ V R E). eapply IH; eauto.
Qed.
End Residual.

Lemma started_rows c f arg h data F f1 h1 : started c f arg h data F f1 h1 -> 1 <= length data.
Proof. intros S. destruct (sd_F _ _ _ _ _ _ _ _ S) as [r0 [R _]]. destruct data; [discriminate|cbn; lia]. Qed.
Lemma all_some c n : all_rows c -> 1 <= n -> some_rows c n.
Proof.
  intros (A1 & A2 & A3) L. split; auto. intros Q. apply orb_true_iff in Q. destruct Q as [Q|Q]; apply qlt_spec in Q; exfalso; [exact (Qclt_not_le _ _ Q A2)|exact (Qclt_not_le _ _ Q A3)].
Qed.

Lemma boosting_residual M P c f0 arg h0 e0 f1 h1 e1 f data r ys i v f' :
  forest_fit M P c f0 arg h0 e0 = Ok (f1, h1, e1) -> used c h1 f1 f -> fit_data f0 arg = Some data ->
  all_rows c -> fc_class c = false -> fc_boosting c = true ->
  boost_ref f0 arg = Some r -> nth_error h0 r = Some {| la_int := false; la_vals := ys |} -> i < length data ->
  forest_predict c f (nth i data []) = Ok (FReg v, f') ->
  exists ys', nth_error h1 r = Some {| la_int := false; la_vals := ys' |} /\ length ys' = length ys /\ (nth i ys' 0 + v = nth i ys 0)%Qc.
Proof.
  intros HF HU HD AR IC BO BR HY LI HP.
  destruct (forest_fit_spec _ _ _ _ _ _ _ _ _ _ HF) as (data' & F & g1 & hh & s & SD & E1 & E2 & _ & L).
  pose proof (sd_data _ _ _ _ _ _ _ _ SD) as D. rewrite HD in D. injection D as <-.
  pose proof (started_rows _ _ _ _ _ _ _ _ SD) as NP. pose proof (all_some _ _ AR NP) as SR.
  assert (MEM : answer (forest_predict c f1 (nth i data [])) = Ok (FReg v)).
  { rewrite <- (forest_memoryless M P c f0 arg h0 e0 f1 h1 e1 f HF HU data HD SR). rewrite HP. reflexivity. }
  apply answer_ok in MEM. destruct MEM as [f2 MEM].
  destruct (forest_boosted c f1 _ _ _ IC BO MEM) as (ps & lr & VT & _ & LR & EV).
  assert (NR : f_new g1 = Some r) by (rewrite (sd_new _ _ _ _ _ _ _ _ SD IC); exact BR).
  destruct (sd_heap _ _ _ _ _ _ _ _ SD) as (ext & EH & EX). rewrite (EX IC), app_nil_r in EH. subst hh.
  pose proof (finv_start M P c data F g1 h0 e0 (proj1 (proj2 (sd_f1 _ _ _ _ _ _ _ _ SD)))) as V.
  assert (R0 : residual data r ys lr {| fs_f := g1; fs_e := e0; fs_h := h0; fs_stop := false |}).
  { exists ys. split; auto. split; auto. intros j J. exists []. split.
    - unfold votes. cbn [fs_f map]. rewrite (proj1 (proj2 (sd_f1 _ _ _ _ _ _ _ _ SD))). constructor.
    - cbn [boosted]. ring. }
  destruct (residual_loop M P c data F g1 h0 r ys lr AR BO LR NR NP _ _ _ _ _ V R0 L) as (ys' & Y1 & Y2 & Y3).
  exists ys'. rewrite E2. split; auto. split; auto. destruct (Y3 i LI) as (vs & W1 & W2). rewrite <- E1 in W1.
  assert (PS : ps = map PReg vs).
  { clear -VT W1. unfold votes in *. revert W1. generalize (map PReg vs) as qs. induction VT; intros qs W; inversion W; subst; auto. f_equal; [congruence|auto]. }
  rewrite EV, PS, map_map. cbn [value_of]. rewrite map_id. exact W2.
Qed.

(** ** Aliasing *)
Lemma labels_untouched M P c f0 arg h0 e0 f1 h1 e1 : forest_fit M P c f0 arg h0 e0 = Ok (f1, h1, e1) ->
  (fc_boosting c = false \/ fc_class c = true -> forall r, r < length h0 -> nth_error h1 r = nth_error h0 r) /\
  (forall r, r < length h0 -> boost_ref f0 arg <> Some r -> nth_error h1 r = nth_error h0 r).
Proof.
  intros HF. destruct (fitted_forest _ _ _ _ _ _ _ _ _ _ HF) as (data & F & g1 & hh & s & infos & SD & _ & -> & V).
  destruct (fi_heap _ _ _ _ _ _ _ _ _ _ V) as (V1 & V2 & V3). destruct (sd_heap _ _ _ _ _ _ _ _ SD) as (ext & EH & EX).
  assert (EXT : forall r, r < length h0 -> nth_error hh r = nth_error h0 r) by (intros r L; rewrite EH; apply nth_error_app1; auto). split.
  - intros OR r L. rewrite <- EXT by auto. destruct (fc_class c) eqn:IC.
    + apply V3. intros Z. pose proof (sd_newc _ _ _ _ _ _ _ _ SD IC r Z). lia.
    + destruct OR as [OR|OR]; [|discriminate]. now rewrite (V1 OR).
  - intros r L NB. rewrite <- EXT by auto. apply V3. destruct (fc_class c) eqn:IC.
    + intros Z. pose proof (sd_newc _ _ _ _ _ _ _ _ SD IC r Z). lia.
    + rewrite (sd_new _ _ _ _ _ _ _ _ SD IC). exact NB.
Qed.

(** ** Budget *)
Lemma forest_budget M P c f0 arg h0 e0 f1 h1 e1 b : forest_fit M P c f0 arg h0 e0 = Ok (f1, h1, e1) -> f_budget f0 = Some b ->
  let q := list_sum (map (fun ct => t_queries (snd ct)) (f_trees f1)) in
  f_queries f1 = f_queries f0 + q /\ f_budget f1 = Some (b - Z.of_nat q)%Z /\ length (f_trees f1) <= fc_n c /\
  (forall ct, In ct (f_trees f1) -> 1 <= t_queries (snd ct)) /\ (f_trees f1 <> [] -> (Z.of_nat q < b + 1000000)%Z).
Proof.
  intros HF HB q. destruct (fitted_forest _ _ _ _ _ _ _ _ _ _ HF) as (data & F & g1 & hh & s & infos & SD & -> & _ & V).
  destruct (sd_f1 _ _ _ _ _ _ _ _ SD) as (S1 & S2 & S3 & S4 & S5 & S6 & S7 & S8). pose proof (fi_budget _ _ _ _ _ _ _ _ _ _ V) as VB. rewrite S5, HB in VB. destruct VB as [B1 [B2 B3]].
  pose proof (Forall2_len _ _ _ (fi_trees _ _ _ _ _ _ _ _ _ _ V)) as LT. split; [|split; [|split; [|split]]]; auto.
  - rewrite (fi_queries _ _ _ _ _ _ _ _ _ _ V), S6. reflexivity.
  - rewrite LT. apply (fi_count _ _ _ _ _ _ _ _ _ _ V).
  - intros NT. apply B3. intros ->. apply NT. destruct (f_trees (fs_f s)); [auto|discriminate].
Qed.
Lemma forest_no_budget M P c f0 arg h0 e0 f1 h1 e1 : forest_fit M P c f0 arg h0 e0 = Ok (f1, h1, e1) -> f_budget f0 = None ->
  length (f_trees f1) = fc_n c /\ f_budget f1 = None /\ f_queries f1 = f_queries f0 + list_sum (map (fun ct => t_queries (snd ct)) (f_trees f1)).
Proof.
  intros HF HB. destruct (fitted_forest _ _ _ _ _ _ _ _ _ _ HF) as (data & F & g1 & hh & s & infos & SD & -> & _ & V).
  destruct (sd_f1 _ _ _ _ _ _ _ _ SD) as (S1 & S2 & S3 & S4 & S5 & S6 & S7 & S8). pose proof (fi_budget _ _ _ _ _ _ _ _ _ _ V) as VB. rewrite S5, HB in VB.
  pose proof (Forall2_len _ _ _ (fi_trees _ _ _ _ _ _ _ _ _ _ V)) as LT. split; [|split; auto].
  - rewrite LT. destruct (fi_count _ _ _ _ _ _ _ _ _ _ V) as [_ [C1 C2]]. apply C1, C2. congruence.
  - rewrite (fi_queries _ _ _ _ _ _ _ _ _ _ V), S6. reflexivity.
Qed.

(** ** Out-of-bag lists *)
Lemma oob_spec idcs n : StronglySorted lt (get_out_of_bag idcs n) /\ forall i, In i (get_out_of_bag idcs n) <-> i < n /\ ~ In i idcs.
Proof.
  split.
  - unfold get_out_of_bag, arange. assert (G : forall m k, StronglySorted lt (filter (fun i => negb (existsb (Nat.eqb i) idcs)) (seq k m))).
    { induction m as [|m IH]; intros k; cbn [seq filter]; [constructor|]. destruct (negb (existsb (Nat.eqb k) idcs)); auto. constructor; auto.
      apply Forall_forall. intros x I. apply filter_In in I. destruct I as [I _]. apply in_seq in I. lia. }
    apply G.
  - intros i. unfold get_out_of_bag. rewrite filter_In, arange_in, negb_true_iff. split; intros [L H]; split; auto.
    + intros I. assert (existsb (Nat.eqb i) idcs = true) by (apply existsb_exists; exists i; split; auto; apply Nat.eqb_refl). congruence.
    + apply not_true_is_false. intros E. apply existsb_exists in E. destruct E as [x [I E]]. apply Nat.eqb_eq in E. subst. auto.
Qed.
Lemma forest_oob M P c f0 arg h0 e0 f1 h1 e1 data : forest_fit M P c f0 arg h0 e0 = Ok (f1, h1, e1) -> fit_data f0 arg = Some data -> fc_bootstrap c = true -> fc_oob c = true ->
  forall k tc t, nth_error (f_trees f1) k = Some (tc, t) -> exists a, grown P M tc a t /\ ta_data a = data /\ length (train_rows a) = length data /\
    exists l, nth_error (f_oob f1) k = Some l /\ StronglySorted lt l /\ forall i, In i l <-> i < length data /\ ~ In i (train_rows a).
Proof.
  intros HF HD BS OB k tc t K. destruct (fitted_forest _ _ _ _ _ _ _ _ _ _ HF) as (data' & F & g1 & hh & s & infos & SD & -> & _ & V).
  pose proof (sd_data _ _ _ _ _ _ _ _ SD) as D. rewrite HD in D. injection D as <-.
  destruct (Forall2_nth _ _ _ _ _ (fi_trees _ _ _ _ _ _ _ _ _ _ V) K) as (a & KA & [I1 I2 I3 I4 I5]). cbn [fst snd] in *. exists a. split; auto.
  split; [apply (ao_data _ _ _ _ _ I3)|]. split; [now apply (ao_boot _ _ _ _ _ I3)|].
  pose proof (fi_oob _ _ _ _ _ _ _ _ _ _ V) as VO. rewrite BS, OB in VO. cbn [andb] in VO. destruct VO as [extra [VO _]]. rewrite (sd_oob _ _ _ _ _ _ _ _ SD OB) in VO. cbn [app] in VO.
  exists (get_out_of_bag (train_rows a) (length data)). split; [|apply oob_spec]. rewrite VO. rewrite nth_error_app1 by (rewrite map_length; apply nth_error_Some; congruence). rewrite nth_error_map, KA. reflexivity.
Qed.

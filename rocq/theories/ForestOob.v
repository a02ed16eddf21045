(** The out-of-bag score. *)
From Coq Require Import List Arith Bool ZArith QArith Qcanon Lia Permutation Sorting.
From Verif Require Import Base Num Rng Histogram Utils Criteria Solvers Tree Forest Spec SolverSpec TreeSpec ForestSpec NumFacts ListFacts DrawFacts TreeFacts CountFacts TreeThms ForestFacts ForestThms ForestMore.
Import ListNotations.
Local Open Scope nat_scope.

Lemma steady_batch tc t : (forall t' x, warmed tc t t' -> answer (tree_predict tc t' x) = answer (tree_predict tc t x)) ->
  forall xs t1 ps t2, warmed tc t t1 -> tree_predict_batch tc t1 xs = Ok (ps, t2) -> Forall2 (fun x p => answer (tree_predict tc t x) = Ok p) xs ps.
Proof.
  intros S. induction xs as [|x xs IH]; intros t1 ps t2 W H; cbn [tree_predict_batch] in H.
  - apply ok_pair_inv in H. destruct H as [<- _]. constructor.
  - apply rbind_ok in H. destruct H as [[p t'] [E1 H]]. apply rbind_ok in H. destruct H as [[qs t''] [E2 H]]. cbn [fst snd] in *. apply ok_pair_inv in H. destruct H as [<- _]. constructor.
    + rewrite <- (S t1 x W), E1. reflexivity.
    + eapply IH; [|eauto]. eapply warmed_trans; [eauto|]. eapply warmed_one; eauto.
Qed.

Definition row_of (p : pred) : list Qc := match p with PClass _ l => l | PReg v => [v] end.
Definition vadd (v r : list Qc) : list Qc := map (fun p => (fst p + snd p)%Qc) (combine v r).
Definition vsum (v : list Qc) (ps : list pred) : list Qc := fold_left (fun v p => vadd v (row_of p)) ps v.

Lemma vadd_length v r : length r = length v -> length (vadd v r) = length v.
Proof. intros L. unfold vadd. rewrite map_length, combine_length. lia. Qed.
Lemma vadd_nth v r j : length r = length v -> nth j (vadd v r) 0%Qc = (nth j v 0 + nth j r 0)%Qc.
Proof.
  revert r j. induction v as [|a v IH]; intros [|b r] j L; cbn in L; try discriminate.
  - destruct j; cbn; ring.
  - destruct j; cbn; [ring|]. apply IH. lia.
Qed.
Lemma vsum_spec K ps : (forall p, In p ps -> length (row_of p) = K) -> forall v, length v = K ->
  length (vsum v ps) = K /\ forall j, nth j (vsum v ps) 0%Qc = (nth j v 0 + qsum (map (fun p => nth j (row_of p) 0%Qc) ps))%Qc.
Proof.
  induction ps as [|p ps IH]; intros H v L; cbn [vsum fold_left map qsum].
  - split; auto. intros j. ring.
  - assert (LP : length (row_of p) = length v) by (rewrite H; [lia|now left]). destruct (IH (fun q I => H q (or_intror I)) (vadd v (row_of p))) as [I1 I2]. { rewrite vadd_length; lia. }
    split; auto. intros j. change (fold_left (fun v p => vadd v (row_of p)) ps (vadd v (row_of p))) with (vsum (vadd v (row_of p)) ps). rewrite I2, vadd_nth by auto. ring.
Qed.

Lemma add_rows_length idcs : forall rows acc, length (add_rows acc idcs rows) = length acc.
Proof.
  unfold add_rows. induction idcs as [|i idcs IH]; intros [|r rows] acc; cbn [combine fold_left]; auto. rewrite IH. cbn [fst]. destruct (nth_error acc i) as [[v k]|]; auto. apply set_nth_length.
Qed.
Lemma add_rows_spec idcs : forall rows acc, NoDup idcs -> length rows = length idcs ->
  forall i v k, nth_error acc i = Some (v, k) ->
    (~ In i idcs -> nth_error (add_rows acc idcs rows) i = Some (v, k)) /\
    (forall j r, nth_error idcs j = Some i -> nth_error rows j = Some r -> nth_error (add_rows acc idcs rows) i = Some (vadd v r, S k)).
Proof.
  unfold add_rows. induction idcs as [|i0 idcs IH]; intros [|r0 rows] acc ND L i v k E; cbn in L; try discriminate; cbn [combine fold_left].
  - split; auto. intros [|j] r Q; discriminate Q.
  - inversion ND; subst. cbn [fst snd]. 
    assert (E1 : nth_error (match nth_error acc i0 with Some (v, k) => set_nth i0 (map (fun p => (fst p + snd p)%Qc) (combine v r0), S k) acc | None => acc end) i = if i =? i0 then Some (vadd v r0, S k) else Some (v, k)).
    { destruct (Nat.eqb_spec i i0) as [->|NQ].
      - rewrite E, set_nth_nth, Nat.eqb_refl, E. reflexivity.
      - destruct (nth_error acc i0) as [[v' k']|]; auto. rewrite set_nth_nth. destruct (Nat.eqb_spec i i0); [contradiction|auto]. }
    destruct (Nat.eqb_spec i i0) as [->|NQ].
    + destruct (IH rows _ H2 ltac:(lia) _ _ _ E1) as [I1 _]. split; [intros N; exfalso; apply N; now left|]. intros j r J R. destruct j as [|j]; cbn in J, R.
      * injection R as <-. now apply I1.
      * exfalso. apply H1. eapply nth_error_In; eauto.
    + destruct (IH rows _ H2 ltac:(lia) _ _ _ E1) as [I1 I2]. split.
      * intros N. apply I1. intros I. apply N. now right.
      * intros [|j] r J R; cbn in J, R; [congruence|]. eapply I2; eauto.
Qed.

Section Acc.
Context (ic : bool) (K : nat).
Definition shaped (ts : list (tcfg * tree)) : Prop :=
  Forall (fun ct => forall x p, answer (tree_predict (fst ct) (snd ct) x) = Ok p -> length (row_of p) = K /\ pred_row ic p = Ok (row_of p)) ts.

Lemma accumulate_spec data : forall ts oob acc acc' ts', steady ts -> shaped ts -> Forall (fun tl : (tcfg * tree) * list nat => NoDup (snd tl)) (combine ts oob) -> oob_accumulate ic data ts oob acc = Ok (acc', ts') ->
  length acc' = length acc /\
  forall i v k, nth_error acc i = Some (v, k) -> length v = K -> exists ps,
    Forall2 (fun ct p => answer (tree_predict (fst ct) (snd ct) (nth i data [])) = Ok p) (map fst (filter (fun tl => existsb (Nat.eqb i) (snd tl)) (combine ts oob))) ps /\
    (forall p, In p ps -> length (row_of p) = K /\ pred_row ic p = Ok (row_of p)) /\
    nth_error acc' i = Some (vsum v ps, k + length ps).
Proof.
  induction ts as [|[tc t] ts IH]; intros oob acc acc' ts' S SH ND H; cbn [oob_accumulate] in H.
  - apply ok_pair_inv in H. destruct H as [<- _]. split; auto. intros i v k E L. exists []. cbn. rewrite Nat.add_0_r. split; [constructor|]. split; [intros p []|auto].
  - apply rbind_ok in H. destruct H as [idcs [E0 H]]. apply rbind_ok in H. destruct H as [u [_ H]]. apply rbind_ok in H. destruct H as [rows [E1 H]]. apply rbind_ok in H. destruct H as [[ps0 t'] [E2 H]].
    apply rbind_ok in H. destruct H as [prs [E3 H]]. apply rbind_ok in H. destruct H as [[a2 ts2] [E4 H]]. cbn [fst snd] in *. apply ok_pair_inv in H. destruct H as [<- _].
    destruct oob as [|o oob]; [discriminate E0|]. cbn in E0. injection E0 as <-. cbn [tl] in E4. cbn [combine] in ND. inversion S; subst. inversion SH; subst. inversion ND; subst. cbn [fst snd] in *.
    pose proof (steady_batch tc t H1 rows t ps0 t' (warmed_refl _ _) E2) as BT. destruct (take_idx_nth data [] _ _ E1) as [ER _].
    assert (LP : length prs = length o). { rewrite (mapM_length _ _ _ E3), <- (Forall2_len _ _ _ BT), ER, map_length. auto. }
    destruct (IH _ _ _ _ H2 H4 H6 E4) as [I1 I2]. split; [rewrite I1; apply add_rows_length|].
    intros i v k E L. destruct (add_rows_spec o prs acc H5 LP i v k E) as [A1 A2]. cbn [combine filter snd]. destruct (existsb (Nat.eqb i) o) eqn:EX.
    + apply existsb_exists in EX. destruct EX as [i' [IN EQ]]. apply Nat.eqb_eq in EQ. subst i'. apply In_nth_error in IN. destruct IN as [j J].
      assert (JR : nth_error rows j = Some (nth i data [])) by (rewrite ER, nth_error_map, J; reflexivity).
      destruct (Forall2_nth _ _ _ _ _ BT JR) as (p & EP & AP). destruct (mapM_nth' _ _ _ _ _ E3 EP) as (r & RP & RQ). destruct (H3 _ _ AP) as [SP1 SP2]. assert (r = row_of p) by congruence. subst r.
      destruct (I2 i (vadd v (row_of p)) (Datatypes.S k) (A2 j _ J RP)) as (ps & P1 & P2 & P3). { rewrite vadd_length; lia. }
      exists (p :: ps). cbn [map fst]. split; [constructor; auto|]. split; [intros q [<-|Q]; auto|]. rewrite P3. cbn [vsum fold_left length]. do 2 f_equal. lia.
    + destruct (I2 i v k) as (ps & P1 & P2 & P3); auto. { apply A1. intros I. assert (existsb (Nat.eqb i) o = true) by (apply existsb_exists; exists i; split; auto; apply Nat.eqb_refl). congruence. }
      exists ps. auto.
Qed.
End Acc.

Lemma sorted_nodup l : StronglySorted lt l -> NoDup l.
Proof.
  induction 1 as [|a l S IH F]; constructor; auto. intros I. rewrite Forall_forall in F. specialize (F a I). lia.
Qed.

Lemma choose_list {A} (d : A) (R : nat -> A -> Prop) n : (forall i, i < n -> exists a, R i a) -> exists V, forall i, i < n -> R i (V i).
Proof.
  induction n as [|n IH]; intros H; [exists (fun _ => d); intros; lia|]. destruct IH as [V HV]; [intros; apply H; lia|]. destruct (H n) as [a HA]; [lia|].
  exists (fun i => if i =? n then a else V i). intros i L. destruct (Nat.eqb_spec i n); [now subst|]. apply HV. lia.
Qed.

Lemma kept_rows (V : nat -> list pred) (ys : list Qc) (acc : list (list Qc * nat)) (v0 : list Qc) :
  length acc = length ys -> (forall i, i < length ys -> nth_error acc i = Some (vsum v0 (V i), length (V i))) ->
  filter (fun lv => negb (snd (snd lv) =? 0)) (combine ys acc) = map (fun i => (nth i ys 0%Qc, (vsum v0 (V i), length (V i)))) (covered V (length ys)).
Proof.
  intros L E. assert (C : combine ys acc = map (fun i => (nth i ys 0%Qc, (vsum v0 (V i), length (V i)))) (seq 0 (length ys))).
  { apply list_ext. intros j. rewrite combine_nth_error, nth_error_map. destruct (le_lt_dec (length ys) j).
    - rewrite (proj2 (nth_error_None ys j)) by auto. rewrite (proj2 (nth_error_None (seq 0 (length ys)) j)) by now rewrite seq_length. auto.
    - rewrite (nth_error_nth' (seq 0 (length ys)) 0) by now rewrite seq_length. rewrite seq_nth by auto. cbn [option_map Nat.add]. rewrite (nth_error_nth' ys 0%Qc), E by auto. reflexivity. }
  rewrite C. clear C. unfold covered. induction (seq 0 (length ys)) as [|i l IH]; cbn [map filter]; auto. cbn [snd]. rewrite IH. destruct (V i) eqn:EV; cbn [length Nat.eqb negb map]; rewrite ?EV; reflexivity.
Qed.
Lemma mean_over_spec (I : list nat) (g : nat -> Qc) : xdiv (Fin (qsum (map g I))) (Fin (Nq (length I))) = mean_over I g.
Proof.
  unfold mean_over. destruct I as [|i I].
  - reflexivity.
  - set (l := i :: I). assert (N0 : Nq (length l) <> 0%Qc) by (apply Nq_neq0; cbn; lia). unfold xdiv. destruct (qeq (Nq (length l)) 0) eqn:Q; [apply qeq_spec in Q; contradiction|]. f_equal. unfold mean. rewrite map_length. reflexivity.
Qed.

Lemma mean_over_ext I g g' : (forall i, In i I -> g i = g' i) -> mean_over I g = mean_over I g'.
Proof. intros H. unfold mean_over. destruct I as [|i I]; auto. now rewrite (map_ext_in _ _ _ H). Qed.

Section Use.
Context (M : math) (P : prng) (c : fcfg) (f0 : forest) (arg : option (list (list Qc)) * option nat) (h0 : heap) (e0 : env) (f1 : forest) (h1 : heap) (e1 : env) (f : forest).
Context (HF : forest_fit M P c f0 arg h0 e0 = Ok (f1, h1, e1)) (HU : used c h1 f1 f).
Context (data : list (list Qc)) (HD : fit_data f0 arg = Some data) (SR : some_rows c (length data)).
Context (BS : fc_bootstrap c = true) (OB : fc_oob c = true).
Context (h : heap) (d : option (list (list Qc))) (s : xn) (f' : forest) (HS : get_oob_score c f h d = Ok (s, f')).

Lemma oob_nodup : Forall (fun tl : (tcfg * tree) * list nat => NoDup (snd tl)) (combine (f_trees f) (f_oob f)).
Proof.
  destruct (used_like _ _ _ _ HU) as [LT LK]. assert (EQ : f_oob f = f_oob f1) by apply LK. apply Forall_forall. intros [ct l] I. apply In_nth_error in I. destruct I as [k K]. rewrite combine_nth_error in K.
  destruct (nth_error (f_trees f) k) as [[tc t]|] eqn:E1; [|discriminate]. destruct (nth_error (f_oob f) k) as [l'|] eqn:E2; [|discriminate]. injection K as <- <-. cbn [snd].
  assert (E3 : exists t', nth_error (f_trees f1) k = Some t'). { destruct (nth_error (f_trees f1) k) eqn:E3; [eauto|]. apply nth_error_None in E3. rewrite (Forall2_len _ _ _ LT) in E3. apply nth_error_None in E3. congruence. }
  destruct E3 as [[tc' t'] E3]. destruct (forest_oob M P c f0 arg h0 e0 f1 h1 e1 data HF HD BS OB k tc' t' E3) as (a & _ & _ & _ & lo & L1 & L2 & _). rewrite EQ in E2. assert (l' = lo) by congruence. subst. now apply sorted_nodup.
Qed.
Lemma use_shaped : (fc_class c = true -> good_classes (f_classes f0)) -> shaped (fc_class c) (if fc_class c then length (f_classes f0) else 1) (f_trees f).
Proof.
  intros GC. destruct (use_infos M P c f0 arg h0 e0 f1 h1 e1 f HF HU data HD) as (F & g1 & hh & infos & SD & IN & _). unfold shaped. clear HS. induction IN as [|ct a ts infos [I1 I2 I3 I4 I5] IN IH]; constructor; auto. intros x p AP.
  assert (NE : train_rows a <> []) by (apply (ao_some _ _ _ _ _ I3); exact SR). destruct (sd_f1 _ _ _ _ _ _ _ _ SD) as (_ & _ & CL & _). destruct (fc_class c) eqn:IC.
  - destruct (grown_class P M (fst ct) a (snd ct) I2 NE x p) as (l & q & -> & L & _); auto; try (rewrite I1; cbn; auto; rewrite CL; auto; fail). cbn. split; auto. rewrite L, I1. cbn. now rewrite CL.
  - destruct (grown_reg P M (fst ct) a (snd ct) I2 NE x p) as (v & -> & _); [rewrite I1; exact IC|exact AP|]. cbn. auto.
Qed.

Notation points := (points data d).
Lemma oob_data : match d with Some x => Some x | None => f_data f end = Some points.
Proof.
  unfold ForestSpec.points. destruct d; auto. destruct (used_like _ _ _ _ HU) as [_ LK]. destruct LK as (-> & _). destruct (fitted_forest _ _ _ _ _ _ _ _ _ _ HF) as (data' & F & g1 & hh & s0 & infos & SD & -> & _ & V).
  destruct (fi_frame _ _ _ _ _ _ _ _ _ _ V) as (? & ? & ? & ? & ? & ->). cbn. destruct (sd_f1 _ _ _ _ _ _ _ _ SD) as (-> & _). pose proof (sd_data _ _ _ _ _ _ _ _ SD). congruence.
Qed.

Lemma oob_score_spec : (fc_class c = true -> good_classes (f_classes f0)) ->
  exists r la V, f_org f = Some r /\ nth_error h r = Some la /\ (forall i, i < length (la_vals la) -> oob_votes f (nth i points []) i (V i)) /\
    if fc_class c
    then exists J, (forall i, In i (covered V (length (la_vals la))) -> oob_class V (length (f_classes f0)) i (J i)) /\
           s = mean_over (covered V (length (la_vals la))) (fun i => if qeq (nth i (la_vals la) 0%Qc) (Nq (J i)) then 1%Qc else 0%Qc)
    else s = mean_over (covered V (length (la_vals la))) (fun i => let e := (nth i (la_vals la) 0 - mean (map value_of (V i)) / Nq (length (V i)))%Qc in (e * e)%Qc).
Proof.
  intros GC. pose proof (use_shaped GC) as SH. pose proof (used_steady M P c f0 arg h0 e0 f1 h1 e1 f HF HU data HD SR) as ST.
  assert (CL : f_classes f = f_classes f0). { destruct (use_infos M P c f0 arg h0 e0 f1 h1 e1 f HF HU data HD) as (F & g1 & hh & infos & SD & IN & E1 & E2 & _). auto. }
  unfold get_oob_score in HS. rewrite oob_data in HS. cbn [opt_res rbind] in HS. pose proof HS as H. clear HS. apply rbind_ok in H. destruct H as [r [E1 H]]. apply opt_res_ok in E1. apply rbind_ok in H. destruct H as [la [E2 H]]. apply nth_res_ok in E2.
  apply rbind_ok in H. destruct H as [[acc ts] [E3 H]]. rewrite CL in E3. set (K := if fc_class c then length (f_classes f0) else 1) in *. set (n := length (la_vals la)) in *.
  destruct (accumulate_spec (fc_class c) K points _ _ _ _ _ ST SH oob_nodup E3) as [A1 A2]. rewrite map_length in A1. fold n in A1.
  destruct (choose_list ([] : list pred) (fun i ps => oob_votes f (nth i points []) i ps /\ (forall p, In p ps -> length (row_of p) = K /\ pred_row (fc_class c) p = Ok (row_of p)) /\ nth_error acc i = Some (vsum (repeat 0%Qc K) ps, length ps)) n) as [V HV].
  { intros i LI. destruct (A2 i (repeat 0%Qc K) 0) as (ps & P1 & P2 & P3).
    - rewrite nth_error_map. rewrite (nth_error_nth' (la_vals la) 0%Qc) by auto. reflexivity.
    - apply repeat_length.
    - exists ps. auto. }
  exists r, la, V. split; auto. split; auto. split; [intros i LI; now apply HV|].
  rewrite (kept_rows V (la_vals la) acc (repeat 0%Qc K)) in H; [|auto|intros i LI; now apply HV]. fold n in H. set (CV := covered V n) in *.
  assert (CVN : forall i, In i CV -> i < n /\ V i <> []). { intros i I. apply filter_In in I. destruct I as [I1 I2]. apply in_seq in I1. split; [lia|]. intros Z. rewrite Z in I2. discriminate. }
  assert (VS : forall i, In i CV -> length (vsum (repeat 0%Qc K) (V i)) = K /\ forall j, nth j (vsum (repeat 0%Qc K) (V i)) 0%Qc = qsum (map (fun p => nth j (row_of p) 0%Qc) (V i))).
  { intros i I. destruct (CVN i I) as [I1 _]. destruct (HV i I1) as (_ & H2 & _). destruct (vsum_spec K (V i) (fun p I => proj1 (H2 p I)) (repeat 0%Qc K) (repeat_length _ _)) as [S1 S2]. split; auto. intros j. rewrite S2, nth_repeat. ring. }
  destruct (fc_class c) eqn:IC.
  - apply rbind_ok in H. destruct H as [hits [E4 H]]. apply ok_pair_inv in H. destruct H as [<- _]. rewrite mapM_map in E4. cbn [fst snd] in E4.
    assert (JX : exists J, forall i, In i CV -> argmax (vsum (repeat 0%Qc K) (V i)) = Ok (J i)).
    { exists (fun i => match argmax (vsum (repeat 0%Qc K) (V i)) with Ok j => j | Err _ => 0 end). intros i I. destruct (argmax (vsum (repeat 0%Qc K) (V i))) eqn:EA; auto. exfalso.
      apply mapM_Forall2 in E4. apply In_nth_error in I. destruct I as [j J]. destruct (Forall2_nth _ _ _ _ _ E4 J) as (b & _ & Q). rewrite EA in Q. discriminate Q. }
    destruct JX as [J HJ]. exists J. split.
    + intros i I. specialize (HJ i I). destruct (argmax_spec _ _ HJ) as (m & M1 & M2 & M3). destruct (VS i I) as [S1 S2]. destruct (CVN i I) as [LI NV].
      assert (JL : J i < K) by (rewrite <- S1; apply nth_error_Some; congruence). destruct (HV i LI) as (_ & HR & _).
      assert (PM : forall j, oob_mean_prob V i j = (nth j (vsum (repeat 0%Qc K) (V i)) 0 / Nq (length (V i)))%Qc).
      { intros j. unfold oob_mean_prob, mean. rewrite S2, map_length. change total with qsum. change rat with Nq. do 2 f_equal. apply map_ext_in. intros p Ip. destruct (HR p Ip) as [_ Q]. destruct p; [reflexivity|discriminate Q]. }
      assert (PP : (0 < Nq (length (V i)))%Qc) by (apply Nq_pos; destruct (V i); [contradiction|cbn; lia]).
      assert (NM : nth (J i) (vsum (repeat 0%Qc K) (V i)) 0%Qc = m) by (apply nth_error_nth; auto).
      split; auto. split; intros j' LJ; rewrite !PM, NM.
      * assert (LE : (nth j' (vsum (repeat 0 K) (V i)) 0 <= m)%Qc) by (apply (M2 j'); apply nth_error_nth'; lia). apply qdiv_le_iff; auto. rewrite qdiv_mult; auto. intros Z. rewrite Z in PP. exact (Qclt_not_le _ _ PP (Qcle_refl _)).
      * assert (LE : (nth j' (vsum (repeat 0 K) (V i)) 0 < m)%Qc) by (apply (M3 j'); auto; apply nth_error_nth'; lia). apply qdiv_lt_iff; auto. rewrite qdiv_mult; auto. intros Z. rewrite Z in PP. exact (Qclt_not_le _ _ PP (Qcle_refl _)).
    + assert (EH : hits = map (fun i => if qeq (nth i (la_vals la) 0%Qc) (Nq (J i)) then 1%Qc else 0%Qc) CV).
      { apply (mapM_ok_map _ (fun i => if qeq (nth i (la_vals la) 0%Qc) (Nq (J i)) then 1%Qc else 0%Qc)) in E4; auto. intros i b I Q. rewrite (HJ i I) in Q. cbn [rbind] in Q. congruence. }
      rewrite EH, map_length. apply mean_over_spec.
  - apply ok_pair_inv in H. destruct H as [<- _]. rewrite map_map, map_length. cbn [fst snd]. rewrite mean_over_spec. apply mean_over_ext. intros i I. destruct (VS i I) as [S1 S2].
    assert (EQ : nth 0 (vsum (repeat 0%Qc K) (V i)) 0%Qc = total (map value_of (V i))). { rewrite S2. change total with qsum. f_equal. apply map_ext_in. intros p Ip. destruct (CVN i I) as [LI _]. destruct (HV i LI) as (_ & HR & _). destruct (HR p Ip) as [_ Q]. destruct p; [discriminate Q|reflexivity]. }
    rewrite EQ. unfold mean. rewrite map_length. reflexivity.
Qed.
End Use.

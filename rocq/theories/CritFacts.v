(** Facts about impurities and impurity reductions. *)
From Coq Require Import List Arith Bool ZArith QArith Qround Qcanon Lia Permutation Sorted.
From Verif Require Import Base Num Rng Histogram Criteria Spec NumFacts ListFacts HistFacts HistAdd.
Import ListNotations.
Local Open Scope nat_scope.

(** ** Counting *)
Lemma sum_nat_app l1 l2 : sum_nat (l1 ++ l2) = sum_nat l1 + sum_nat l2.
Proof. unfold sum_nat. induction l1; cbn; lia. Qed.
Lemma class_counts_app cl l1 l2 :
  sum_nat (class_counts cl (l1 ++ l2)) = sum_nat (class_counts cl l1) + sum_nat (class_counts cl l2).
Proof.
  unfold class_counts, sum_nat. induction cl as [|c cl IH]; cbn; auto.
  rewrite occurrences_app. lia.
Qed.
Lemma sum_class_counts cl ls : NoDup cl -> incl ls cl -> sum_nat (class_counts cl ls) = length ls.
Proof.
  intros ND. induction ls as [|y ls IH]; intros I.
  - unfold class_counts. clear. induction cl; cbn in *; auto.
  - change (y :: ls) with ([y] ++ ls). rewrite class_counts_app, IH by (intros x Hx; apply I; now right).
    cbn [app length]. assert (Iy : In y cl) by (apply I; now left). clear - ND Iy.
    change (S (length ls)) with (1 + length ls). f_equal.
    induction ND as [|c cl N ND IH]; [destruct Iy|].
    unfold class_counts, sum_nat in *. cbn [map fold_right]. rewrite occurrences_one.
    destruct (qeq y c) eqn:E.
    + apply qeq_spec in E. subst. clear - N. cut (fold_right Nat.add 0 (map (fun c0 => occurrences c0 [c]) cl) = 0); [lia|].
      induction cl as [|d cl IH]; cbn [map fold_right]; auto. rewrite IH by (intro; apply N; now right).
      rewrite occurrences_one. destruct (qeq c d) eqn:E; auto. apply qeq_spec in E. subst. destruct N. now left.
    + destruct Iy as [->|Iy]; [rewrite qeq_refl in E; discriminate|]. cbn. auto.
Qed.

Lemma occurrences_le c l : occurrences c l <= length l.
Proof. unfold occurrences. induction l as [|y l IH]; cbn; auto. destruct (Qc_eq_dec y c); lia. Qed.
Lemma occurrences_zero c l : ~ In c l -> occurrences c l = 0.
Proof. unfold occurrences. apply count_occ_not_In. Qed.
Lemma occurrences_pos c l : In c l -> 0 < occurrences c l.
Proof. unfold occurrences. intros. now apply count_occ_In. Qed.

Lemma fraction_zero c l : ~ In c l -> fraction c l = 0%Qc.
Proof.
  intros H. unfold fraction. rewrite occurrences_zero by auto. change (rat 0) with 0%Qc.
  unfold Qcdiv. ring.
Qed.
Lemma fraction_range c l : (0 <= fraction c l /\ fraction c l <= 1)%Qc.
Proof.
  unfold fraction. destruct l as [|y l].
  - cbn. split; discriminate.
  - change rat with Nq. assert (P : (0 < Nq (length (y :: l)))%Qc) by (apply Nq_pos; cbn; lia). split.
    + apply qdiv_le_0; auto. apply Nq_nonneg.
    + apply qdiv_le_iff; auto. rewrite Qcmult_1_l. apply Nq_le, occurrences_le.
Qed.
Lemma fraction_pos c l : In c l -> (0 < fraction c l)%Qc.
Proof.
  intros I. unfold fraction. change rat with Nq. apply qdiv_lt_0; apply Nq_pos.
  - now apply occurrences_pos.
  - destruct l; [destruct I|cbn; lia].
Qed.

(** Sums over any duplicate-free list of classes that covers the labels. *)
Lemma total_over_classes (g : Qc -> Qc) cl ls : NoDup cl -> incl ls cl ->
  (forall c, ~ In c ls -> g c = 0%Qc) ->
  total (map g (nodup Qc_eq_dec ls)) = total (map g cl).
Proof.
  intros ND I Z. change total with qsum.
  assert (P : Permutation cl (filter (fun c => qmem c ls) cl ++ filter (fun c => negb (qmem c ls)) cl))
    by apply filter_split_perm.
  assert (M : forall c, qmem c ls = true <-> In c ls).
  { intros c. unfold qmem. rewrite existsb_exists. split.
    - intros [x [Hx E]]. apply qeq_spec in E. now subst.
    - intros H. exists c. split; auto. apply qeq_refl. }
  rewrite (qsum_perm _ _ (Permutation_map g P)), map_app, qsum_app.
  assert (E0 : qsum (map g (filter (fun c => negb (qmem c ls)) cl)) = 0%Qc).
  { rewrite (qsum_map_ext g (fun _ => 0%Qc)).
    - rewrite qsum_map_const. ring.
    - intros c H. apply filter_In in H. destruct H as [_ H]. apply Z. intros J. apply M in J.
      rewrite J in H. discriminate. }
  rewrite E0, Qcplus_0_r. apply qsum_perm, Permutation_map. apply NoDup_Permutation.
  - apply NoDup_nodup.
  - now apply NoDup_filter.
  - intros c. rewrite nodup_In, filter_In, M. split; [auto|tauto].
Qed.

Lemma gini_classes cl ls : NoDup cl -> incl ls cl ->
  gini ls = (1 - qsum (map (fun c => fraction c ls * fraction c ls)%Qc cl))%Qc.
Proof.
  intros ND I. unfold gini. rewrite (total_over_classes _ cl); auto.
  intros c H. rewrite fraction_zero by auto. ring.
Qed.
Lemma entropy_classes lg cl ls : NoDup cl -> incl ls cl ->
  entropy lg ls = qsum (map (fun c => - (lg (fraction c ls)) * fraction c ls)%Qc cl).
Proof.
  intros ND I. unfold entropy. rewrite (total_over_classes _ cl); auto.
  intros c H. rewrite (fraction_zero c) by auto. ring.
Qed.

Lemma class_probs_fraction cl ls :
  class_probs (class_counts cl ls) (length ls) = map (fun c => fraction c ls) cl.
Proof.
  unfold class_probs, class_counts. rewrite map_map. apply map_ext. intros c. cbn [xdiv].
  unfold fraction. change rat with Nq. destruct (qeq (Nq (length ls)) 0) eqn:E.
  - apply qeq_spec in E. rewrite <- Nq_0 in E. apply Nq_inj in E. destruct ls; [|discriminate].
    cbn. reflexivity.
  - reflexivity.
Qed.

(** The impurity a classification measure stands for. *)
Definition class_imp (M : math) (m : measure) : list Qc -> Qc :=
  match m with ENTROPY => entropy (m_log M) | _ => gini end.

Lemma get_gini_counts cl ls pop g v : NoDup cl -> incl ls cl ->
  get_gini (class_counts cl ls) pop (Some (length ls)) = Ok (g, v) -> g = gini ls.
Proof.
  intros ND I. unfold get_gini. cbn [opt_n]. rewrite class_probs_fraction.
  destruct (map (fun c => fraction c ls) cl) eqn:E; [discriminate|]. rewrite <- E.
  intros H. apply ok_pair_inv in H; destruct H as [<- _]. rewrite (gini_classes cl) by auto. now rewrite map_map.
Qed.
Lemma get_gini_total counts pop n : counts <> [] -> exists r, get_gini counts pop n = Ok r.
Proof.
  intros H. unfold get_gini, class_probs. destruct counts; [contradiction|]. cbn. eauto.
Qed.
Lemma get_entropy_counts M cl ls pop g v : NoDup cl -> incl ls cl ->
  get_entropy M (class_counts cl ls) pop (Some (length ls)) = Ok (g, v) -> g = entropy (m_log M) ls.
Proof.
  intros ND I. unfold get_entropy. cbn [opt_n]. rewrite class_probs_fraction.
  set (p := map (fun c => fraction c ls) cl).
  set (lp := map (fun x => nan_to_num (xlog M x)) p).
  assert (E : qsum (map (fun xl => - snd xl * fst xl)%Qc (combine p lp)) = entropy (m_log M) ls).
  { rewrite (entropy_classes _ cl) by auto. unfold lp, p. rewrite map_map.
    assert (C : forall (A B C : Type) (f : A -> B) (g : A -> C) l, combine (map f l) (map g l) = map (fun a => (f a, g a)) l).
    { clear. induction l; cbn; congruence. }
    rewrite C, map_map. apply qsum_map_ext. intros c _. cbn [fst snd]. unfold xlog.
    destruct (fraction_range c ls) as [F _]. apply qlt_false in F. rewrite F.
    destruct (qeq (fraction c ls) 0) eqn:Z; [|reflexivity].
    apply qeq_spec in Z. rewrite Z. cbn. ring. }
  destruct p as [|p0 [|p1 [|p2 p']]]; try discriminate.
  - intros H. apply ok_pair_inv in H; destruct H as [<- _]. exact E.
  - intros H. apply ok_pair_inv in H; destruct H as [<- _]. exact E.
  - subst lp. cbn [map]. intros H. apply ok_pair_inv in H; destruct H as [<- _]. exact E.
Qed.

Lemma class_impurity_counts M m cl ls pop g v : NoDup cl -> incl ls cl ->
  class_impurity M m (class_counts cl ls) pop (length ls) = Ok (g, v) -> g = class_imp M m ls.
Proof.
  intros ND I. unfold class_impurity, class_imp. destruct m; try discriminate.
  - eapply get_gini_counts; eauto.
  - eapply get_entropy_counts; eauto.
  - eapply get_gini_counts; eauto.
Qed.

(** ** Sides of a split *)
Lemma parts_length f v T : length (left_part f v T) + length (right_part f v T) = length T.
Proof. apply filter_length_split. Qed.
Lemma labels_length T : length (labels_of T) = length T.
Proof. apply map_length. Qed.
Lemma left_part_incl f v T : incl (labels_of (left_part f v T)) (labels_of T).
Proof.
  intros c H. unfold labels_of in *. apply in_map_iff in H. destruct H as [r [<- H]].
  apply filter_In in H. apply in_map. tauto.
Qed.
Lemma right_part_incl f v T : incl (labels_of (right_part f v T)) (labels_of T).
Proof.
  intros c H. unfold labels_of in *. apply in_map_iff in H. destruct H as [r [<- H]].
  apply filter_In in H. apply in_map. tauto.
Qed.
Lemma parts_perm f v T : Permutation T (left_part f v T ++ right_part f v T).
Proof. apply filter_split_perm. Qed.
Lemma parts_occurrences c f v T :
  occurrences c (labels_of T) = occurrences c (labels_of (left_part f v T)) + occurrences c (labels_of (right_part f v T)).
Proof.
  rewrite <- occurrences_app, <- labels_of_app. apply occurrences_perm, Permutation_map, parts_perm.
Qed.

Lemma combine_counts cl l1 l2 l :
  (forall c, occurrences c l = occurrences c l1 + occurrences c l2) ->
  map (fun ab => fst ab + snd ab) (combine (class_counts cl l1) (class_counts cl l2)) = class_counts cl l.
Proof.
  intros H. unfold class_counts. induction cl as [|c cl IH]; cbn [map combine]; auto.
  rewrite IH, H. reflexivity.
Qed.

(** ** Classification: the estimates are the true reductions of the rows seen *)
Lemma class_reductions_spec M m h edges T bins pop irs vs :
  h_class h = true -> class_inv h edges T -> NoDup (h_classes h) ->
  incl (labels_of T) (h_classes h) ->
  get_impurity_reductions M m h bins pop = Ok (irs, vs) ->
  length irs = length bins /\ length vs = length bins /\
  forall i b ir, nth_error bins i = Some b -> nth_error irs i = Some ir ->
    exists e, nth_error edges b = Some e /\ ir = reduction (class_imp M m) T (h_feat h) e.
Proof.
  intros C [IL IR] ND IN H. unfold get_impurity_reductions in H. rewrite C in H.
  apply rbind_ok in H. destruct H as [[] [G H]].
  apply rbind_ok in H. destruct H as [l0 [EL0 H]].
  apply rbind_ok in H. destruct H as [r0 [ER0 H]].
  apply rbind_ok in H. destruct H as [sides [ES H]].
  apply nth_res_ok in EL0. apply nth_res_ok in ER0.
  rewrite IL in EL0. rewrite IR in ER0. unfold lcounts in EL0. unfold rcounts in ER0.
  rewrite nth_error_map in EL0, ER0.
  destruct (nth_error edges 0) as [e0|] eqn:E0; [|discriminate]. cbn in EL0, ER0.
  injection EL0 as <-. injection ER0 as <-.
  set (cl := h_classes h) in *. set (f := h_feat h) in *.
  assert (IL' : forall e, incl (labels_of (left_part f e T)) cl) by (intros; eapply incl_tran; [apply left_part_incl|auto]).
  assert (IR' : forall e, incl (labels_of (right_part f e T)) cl) by (intros; eapply incl_tran; [apply right_part_incl|auto]).
  rewrite !sum_class_counts, !labels_length, parts_length in ES by auto.
  assert (S : forall i b s, nth_error bins i = Some b -> nth_error sides i = Some s ->
     exists e il ir, nth_error edges b = Some e /\
       s = (weigh (length (left_part f e T)) (length T) il, weigh (length (right_part f e T)) (length T) ir, length T) /\
       fst il = class_imp M m (labels_of (left_part f e T)) /\
       fst ir = class_imp M m (labels_of (right_part f e T))).
  { intros i b s Hb Hs. destruct (mapM_nth' _ _ _ _ _ ES Hb) as [s' [Hs' K]].
    rewrite Hs in Hs'. injection Hs' as <-.
    apply rbind_ok in K. destruct K as [l [K1 K]].
    apply rbind_ok in K. destruct K as [r [K2 K]].
    apply nth_res_ok in K1. apply nth_res_ok in K2.
    rewrite IL in K1. rewrite IR in K2. unfold lcounts in K1. unfold rcounts in K2.
    rewrite nth_error_map in K1, K2.
    destruct (nth_error edges b) as [e|] eqn:E; [|discriminate]. cbn in K1, K2.
    injection K1 as <-. injection K2 as <-. rewrite !sum_class_counts, !labels_length in K by auto.
    apply rbind_ok in K. destruct K as [[] [_ K]].
    apply rbind_ok in K. destruct K as [il [K1 K]].
    apply rbind_ok in K. destruct K as [ir [K2 K]].
    injection K as <-. exists e, il, ir. rewrite parts_length. repeat split; auto.
    - destruct il as [g v]. rewrite <- (labels_length (left_part f e T)) in K1.
      eapply class_impurity_counts; [exact ND|apply IL'|exact K1].
    - destruct ir as [g v]. rewrite <- (labels_length (right_part f e T)) in K2.
      eapply class_impurity_counts; [exact ND|apply IR'|exact K2]. }
  assert (LS := mapM_length _ _ _ ES).
  destruct (rev sides) as [|[ab lastn] rs] eqn:RS; [discriminate|].
  assert (LN : lastn = length T).
  { assert (I : In (ab, lastn) sides). { apply in_rev. rewrite RS. now left. }
    apply In_nth_error in I. destruct I as [i I].
    destruct (nth_error bins i) as [b|] eqn:B.
    - destruct (S _ _ _ B I) as [e [il [ir [_ [Q _]]]]]. injection Q as _ ->. reflexivity.
    - apply nth_error_None in B. assert (i < length sides) by (apply nth_error_Some; congruence). lia. }
  rewrite (combine_counts cl _ _ (labels_of T)) in H by (intros; apply parts_occurrences).
  apply rbind_ok in H. destruct H as [c [EC H]]. destruct c as [cg cv].
  rewrite LN, <- (labels_length T) in EC.
  apply class_impurity_counts in EC; auto. subst cg.
  injection H as <- <-. rewrite !map_length. repeat split; auto.
  intros i b ir Hb Hi. rewrite nth_error_map in Hi.
  destruct (nth_error sides i) as [s|] eqn:Es; [|discriminate].
  destruct (S _ _ _ Hb Es) as [e [il [ir' [E [Q [F1 F2]]]]]]. exists e. split; auto.
  injection Hi as <-. rewrite Q. unfold weigh. cbn [fst]. rewrite F1, F2. reflexivity.
Qed.

(** ** Regression *)
Lemma variance_one a : variance [a] = 0%Qc.
Proof.
  unfold variance, mean. cbn [length map total]. change (rat 1) with 1%Qc.
  field. discriminate.
Qed.
Lemma nan_to_num_zero_div x y : (x = 0)%Qc -> nan_to_num (xdiv (Fin x) (Fin y)) = 0%Qc.
Proof.
  intros ->. cbn [xdiv]. destruct (qeq y 0); cbn.
  - reflexivity.
  - unfold Qcdiv. ring.
Qed.

Lemma get_mse_whole l : exists v, get_mse (pile_of l) (Some (length l)) = Ok (variance l, v).
Proof.
  unfold get_mse. cbn [p_n p_var pile_of]. rewrite Nat.leb_refl. cbn [guard rbind].
  set (v := nan_to_num (xadd _ _)). exists v. clearbody v. f_equal. f_equal.
  destruct l as [|a [|b l]].
  - apply nan_to_num_zero_div. cbn. reflexivity.
  - rewrite variance_one. apply nan_to_num_zero_div. ring.
  - set (x := a :: b :: l). set (n := Nq (length x)).
    assert (N1 : (n - 1)%Qc <> 0%Qc).
    { unfold n. rewrite <- Nq_1, <- Nq_minus by (cbn; lia). apply Nq_neq0. cbn. lia. }
    assert (N2 : n <> 0%Qc) by (apply Nq_neq0; cbn; lia).
    cbn [xdiv]. destruct (qeq ((n - 1) * n) 0) eqn:E.
    + apply qeq_spec in E. apply qmult_eq_0 in E. tauto.
    + cbn [nan_to_num]. field. auto.
Qed.

Lemma ztrunc_nat n : ztrunc (Nq n) = Z.of_nat n.
Proof.
  unfold ztrunc. assert (Q : qle 0 (Nq n) = true) by (apply qle_spec; apply Nq_nonneg). rewrite Q. unfold qfloor, Nq.
  change (Qfloor (Q2Qc (inject_Z (Z.of_nat n))) = Z.of_nat n). rewrite <- (Qfloor_Z (Z.of_nat n)) at 2. apply Qfloor_comp. apply Qred_correct.
Qed.
Lemma ztrunc_whole q : ztrunc q = whole_part q.
Proof.
  unfold ztrunc, whole_part. destruct (Qclt_le_dec q 0) as [H|H].
  - assert (Q : qle 0 q = false) by (apply qle_false; exact H). now rewrite Q.
  - assert (Q : qle 0 q = true) by (apply qle_spec; exact H). now rewrite Q.
Qed.
Lemma gini_of_pile_lump l pop : fst (gini_of_pile (pile_of l) pop) = lump l.
Proof.
  unfold gini_of_pile, lump, pile_total, pile_counts. cbn [fst map fold_right p_n p_mean p_var pile_of qsum]. rewrite ztrunc_nat, !ztrunc_whole.
  change qmean with mean. change qvar with variance. replace (Z.of_nat (length l) + (whole_part (mean l) + (whole_part (variance l) + 0)))%Z with (Z.of_nat (length l) + whole_part (mean l) + whole_part (variance l))%Z by ring.
  set (n := (Z.of_nat (length l) + whole_part (mean l) + whole_part (variance l))%Z).
  assert (D : forall x, nan_to_num (xdiv (Fin x) (Fin (Zq n))) = if (n =? 0)%Z then 0%Qc else (x / Zq n)%Qc).
  { intros x. cbn [xdiv]. destruct (Z.eqb_spec n 0) as [Z|Z].
    - rewrite Z. change (qeq (Zq 0) 0) with true. cbn [negb]. unfold xinf_mul. destruct (xsign x); reflexivity.
    - assert (Q : qeq (Zq n) 0 = false). { apply qeq_false. intros Q. apply Z. unfold Zq in Q. change 0%Qc with (Q2Qc (inject_Z 0)) in Q. apply Q2Qc_eq_iff in Q. unfold Qeq in Q. cbn in Q. lia. }
      rewrite Q. reflexivity. }
  rewrite !D. change (Q2Qc (inject_Z n)) with (Zq n). change rat with Nq. destruct (n =? 0)%Z; ring.
Qed.

(** The impurity of a pile with the given measure. *)
Definition regr_imp (m : measure) : list Qc -> Qc := match m with GINI => lump | _ => variance end.
Lemma regr_reductions_spec M m h edges T bins irs vs :
  h_class h = false -> regr_inv h edges T -> T <> [] ->
  get_impurity_reductions M m h bins (Some (length T)) = Ok (irs, vs) ->
  length irs = length bins /\ length vs = length bins /\
  forall i b ir, nth_error bins i = Some b -> nth_error irs i = Some ir ->
    exists e, nth_error edges b = Some e /\ ir = reduction (regr_imp m) T (h_feat h) e.
Proof.
  intros C [IL [IR IC]] NE H. unfold get_impurity_reductions in H. rewrite C in H.
  apply rbind_ok in H. destruct H as [[] [G H]].
  apply rbind_ok in H. destruct H as [l0 [EL0 H]].
  apply rbind_ok in H. destruct H as [r0 [ER0 H]].
  apply rbind_ok in H. destruct H as [sides [ES H]].
  apply nth_res_ok in EL0. apply nth_res_ok in ER0.
  rewrite IL in EL0. rewrite IR in ER0. unfold lpiles in EL0. unfold rpiles in ER0.
  rewrite nth_error_map in EL0, ER0.
  destruct (nth_error edges 0) as [e0|] eqn:E0; [|discriminate]. cbn in EL0, ER0.
  injection EL0 as <-. injection ER0 as <-. set (f := h_feat h) in *.
  cbn [p_n pile_of] in ES. rewrite !labels_length, parts_length in ES.
  assert (N0 : length T <> 0) by (destruct T; [contradiction|discriminate]).
  assert (SS : forall k, side_size (Some (length T)) k (length T) = Some k).
  { intros k. cbn. now rewrite Nat.div_mul. }
  set (imp := regr_imp m).
  assert (RI : forall l iv, regr_impurity m (pile_of l) (Some (length l)) = Ok iv -> fst iv = imp l).
  { intros l iv R. unfold regr_impurity in R. destruct (get_mse_whole l) as [v W].
    destruct m; try discriminate; try rewrite W in R; cbn [rbind] in R; injection R as <-; try reflexivity. apply gini_of_pile_lump. }
  assert (S : forall i b s, nth_error bins i = Some b -> nth_error sides i = Some s ->
     exists e il ir, nth_error edges b = Some e /\
       s = (weigh (length (left_part f e T)) (length T) il, weigh (length (right_part f e T)) (length T) ir) /\
       fst il = imp (labels_of (left_part f e T)) /\
       fst ir = imp (labels_of (right_part f e T))).
  { intros i b s Hb Hs. destruct (mapM_nth' _ _ _ _ _ ES Hb) as [s' [Hs' K]].
    rewrite Hs in Hs'. injection Hs' as <-.
    apply rbind_ok in K. destruct K as [l [K1 K]].
    apply rbind_ok in K. destruct K as [r [K2 K]].
    apply nth_res_ok in K1. apply nth_res_ok in K2.
    rewrite IL in K1. rewrite IR in K2. unfold lpiles in K1. unfold rpiles in K2.
    rewrite nth_error_map in K1, K2.
    destruct (nth_error edges b) as [e|] eqn:E; [|discriminate]. cbn in K1, K2.
    injection K1 as <-. injection K2 as <-.
    cbn [p_n pile_of] in K. rewrite !SS, !labels_length in K.
    apply rbind_ok in K. destruct K as [[] [_ K]].
    apply rbind_ok in K. destruct K as [il [K1 K]].
    apply rbind_ok in K. destruct K as [ir [K2 K]].
    injection K as <-. exists e, il, ir. repeat split; auto.
    - apply RI. rewrite labels_length. exact K1.
    - apply RI. rewrite labels_length. exact K2. }
  assert (LS := mapM_length _ _ _ ES).
  apply rbind_ok in H. destruct H as [c [EC H]]. rewrite IC in EC.
  rewrite <- (labels_length T) in EC. apply RI in EC.
  injection H as <- <-. rewrite !map_length. repeat split; auto.
  intros i b ir Hb Hi. rewrite nth_error_map in Hi.
  destruct (nth_error sides i) as [s|] eqn:Es; [|discriminate].
  destruct (S _ _ _ Hb Es) as [e [il [ir' [E [Q [F1 F2]]]]]]. exists e. split; auto.
  injection Hi as <-. rewrite Q. unfold weigh. cbn [fst snd]. rewrite F1, F2, EC. reflexivity.
Qed.

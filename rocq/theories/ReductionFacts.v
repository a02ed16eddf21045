(** Ranges of the impurities and closed forms of the reductions. *)
From Coq Require Import List Arith Bool ZArith QArith Qcanon Lia Permutation Sorted.
From Verif Require Import Base Num Rng Histogram Criteria Spec NumFacts ListFacts HistFacts HistAdd CritFacts.
Import ListNotations.
Local Open Scope Qc_scope.

(** ** Gini range *)
Lemma qsum_member_le l x : (forall y, In y l -> 0 <= y) -> In x l -> x <= qsum l.
Proof.
  induction l as [|a l IH]; intros H I; [destruct I|]. cbn [qsum].
  assert (0 <= a) by (apply H; now left).
  assert (0 <= qsum l) by (apply qsum_nonneg; intros; apply H; now right).
  destruct I as [->|I]; [qlra|].
  assert (x <= qsum l) by (apply IH; auto; intros; apply H; now right). qlra.
Qed.
Lemma sum_sq_upper p : (forall y, In y p -> 0 <= y) -> qsum p = 1 ->
  qsum (map (fun x => x * x) p) <= 1.
Proof.
  intros H S. rewrite <- S. rewrite <- (map_id p) at 2. apply qsum_map_le.
  intros x I. assert (0 <= x) by auto. assert (x <= 1) by (rewrite <- S; now apply qsum_member_le).
  qnra.
Qed.
Lemma sum_sq_lower p : p <> [] -> qsum p = 1 -> 1 / Nq (length p) <= qsum (map (fun x => x * x) p).
Proof.
  intros N S. assert (K : Nq (length p) <> 0) by (apply Nq_neq0; destruct p; [contradiction|cbn; lia]).
  set (k := 1 / Nq (length p)).
  assert (E : qsum (map (fun x => (x - k) * (x - k)) p) = qsum (map (fun x => x * x) p) - k).
  { rewrite sum_sq_dev, S. unfold k. field. auto. }
  assert (0 <= qsum (map (fun x => (x - k) * (x - k)) p)).
  { apply qsum_nonneg. intros y I. apply in_map_iff in I. destruct I as [x [<- _]]. apply qsquare_nonneg. }
  qlra.
Qed.
Lemma sum_sq_one p : (forall y, In y p -> 0 <= y) -> qsum p = 1 ->
  (qsum (map (fun x => x * x) p) = 1 <-> (forall y, In y p -> y = 0 \/ y = 1)).
Proof.
  intros H S. split.
  - intros E. assert (D : qsum (map (fun x => x - x * x) p) = 0).
    { rewrite (qsum_map_ext _ (fun x => x + (-(1)) * (x * x))) by (intros; ring).
      rewrite qsum_map_plus, qsum_map_scal, E, map_id, S. ring. }
    intros y I. assert (Z : y - y * y = 0).
    { eapply qsum_zero; [|exact D|].
      - intros z J. apply in_map_iff in J. destruct J as [x [<- J]].
        assert (0 <= x) by auto. assert (x <= 1) by (rewrite <- S; now apply qsum_member_le). qnra.
      - apply in_map_iff. eauto. }
    assert (P : y * (1 - y) = 0) by (rewrite <- Z; ring). apply qmult_eq_0 in P. destruct P; auto. right. qlra.
  - intros Z. rewrite <- S. f_equal. rewrite <- (map_id p) at 2. apply map_ext_in. intros x I.
    destruct (Z x I) as [->| ->]; ring.
Qed.

Lemma class_probs_pos counts n : (0 < n)%nat ->
  class_probs counts n = map (fun c => Nq c / Nq n) counts.
Proof.
  intros H. unfold class_probs. apply map_ext. intros c. cbn [xdiv].
  apply Nq_neq0 in H. apply qeq_false in H. now rewrite H.
Qed.
Lemma Nq_sum_nat l : Nq (sum_nat l) = qsum (map Nq l).
Proof. unfold sum_nat. induction l; cbn [fold_right map qsum]; auto. rewrite Nq_plus. congruence. Qed.
Lemma class_probs_sum counts : (0 < sum_nat counts)%nat -> qsum (class_probs counts (sum_nat counts)) = 1.
Proof.
  intros H. rewrite class_probs_pos by auto.
  rewrite (qsum_map_ext _ (fun c => (/ Nq (sum_nat counts)) * Nq c)) by (intros; unfold Qcdiv; ring).
  rewrite qsum_map_scal, <- Nq_sum_nat. field. now apply Nq_neq0.
Qed.
Lemma class_probs_nonneg counts n y : In y (class_probs counts n) -> 0 <= y.
Proof.
  unfold class_probs. intros I. apply in_map_iff in I. destruct I as [c [<- _]]. cbn [xdiv].
  destruct (qeq (Nq n) 0) eqn:E.
  - unfold xinf_mul. destruct (xsign (Nq c)); cbn; apply qle_refl.
  - cbn. apply qdiv_le_0; [apply Nq_nonneg|]. apply qeq_false in E.
    apply Nq_pos. destruct n; [|lia]. now rewrite Nq_0 in E.
Qed.

Lemma get_gini_range counts pop n g v :
  get_gini counts pop n = Ok (g, v) -> (0 < sum_nat counts)%nat ->
  n = None \/ n = Some (sum_nat counts) ->
  0 <= g /\ g <= 1 - 1 / Nq (length counts) /\
  (g = 0 <-> exists c, In c counts /\ c = sum_nat counts).
Proof.
  intros H P Hn. unfold get_gini in H.
  replace (opt_n n counts) with (sum_nat counts) in H by (destruct Hn as [->| ->]; reflexivity).
  set (p := class_probs counts (sum_nat counts)) in *.
  assert (S : qsum p = 1) by now apply class_probs_sum.
  assert (PP : forall y, In y p -> 0 <= y) by (intros y; apply class_probs_nonneg).
  assert (LP : length p = length counts) by apply map_length.
  destruct p as [|p0 p'] eqn:Ep; [discriminate|]. rewrite <- Ep in *.
  apply ok_pair_inv in H; destruct H as [<- _].
  assert (NP : p <> []) by (rewrite Ep; discriminate).
  pose proof (sum_sq_upper p PP S). pose proof (sum_sq_lower p NP S) as L. rewrite LP in L.
  split; [qlra|]. split; [qlra|].
  assert (A : 1 - qsum (map (fun x => x * x) p) = 0 <-> qsum (map (fun x => x * x) p) = 1).
  { split; intros; qlra. }
  rewrite A, (sum_sq_one p PP S). subst p. rewrite class_probs_pos by auto.
  assert (NZ : Nq (sum_nat counts) <> 0) by now apply Nq_neq0.
  split.
  - intros Z. rewrite class_probs_pos in S by auto.
    destruct (In_dec Nat.eq_dec (sum_nat counts) counts) as [I|I]; eauto.
    exfalso. assert (E : qsum (map (fun c => Nq c / Nq (sum_nat counts)) counts) = 0).
    { rewrite (qsum_map_ext _ (fun _ => 0)). rewrite qsum_map_const. ring.
      intros c Hc. destruct (Z (Nq c / Nq (sum_nat counts))) as [E|E]; auto.
      - apply in_map_iff. eauto.
      - exfalso. apply I. replace (sum_nat counts) with c; auto. apply Nq_inj.
        rewrite <- (Qcmult_1_l (Nq (sum_nat counts))), <- E. field. auto. }
    rewrite E in S. discriminate.
  - intros [c [Hc Ec]] y I. apply in_map_iff in I. destruct I as [d [<- Hd]].
    assert (D : (d = 0 \/ d = sum_nat counts)%nat).
    { clear - Hc Hd Ec. revert c Hc Ec. unfold sum_nat. induction counts as [|x l IH]; [destruct Hd|].
      intros c Hc Ec. cbn in *.
      assert (M : forall z, In z l -> (z <= fold_right Nat.add 0 l)%nat).
      { clear. induction l; intros z []; cbn; subst; try lia. apply IHl in H. lia. }
      destruct Hc as [->|Hc], Hd as [->|Hd]; try lia.
      - apply M in Hd. lia.
      - apply M in Hc. lia.
      - pose proof (M _ Hc). assert (x = 0%nat) by lia. subst x. cbn in *. eapply IH; eauto. }
    destruct D as [->| ->]; [left; rewrite Nq_0; unfold Qcdiv; ring|right; field; auto].
Qed.

(** ** Gini reductions *)
Lemma reduction_gini_cases T f v : T <> [] ->
  let L := left_part f v T in let R := right_part f v T in
  (L = [] \/ R = [] -> reduction gini T f v = 0) /\
  (L <> [] -> R <> [] ->
     reduction gini T f v =
     - (total (map (fun c => let d := rat (length R) * rat (occurrences c (labels_of L))
                                      - rat (length L) * rat (occurrences c (labels_of R)) in d * d)
                   (nodup Qc_eq_dec (labels_of T)))
        / (rat (length T) * rat (length T) * rat (length L) * rat (length R)))).
Proof.
  intros NT L R. unfold reduction. fold L R.
  assert (PTl : (0 < length T)%nat) by (destruct T; [contradiction|cbn; lia]).
  assert (Len : length T = (length L + length R)%nat) by (symmetry; apply parts_length).
  assert (P : Permutation T (L ++ R)) by apply parts_perm.
  set (cl := nodup Qc_eq_dec (labels_of T)).
  assert (ND : NoDup cl) by apply NoDup_nodup.
  assert (I : incl (labels_of T) cl) by (intros c; unfold cl; now rewrite nodup_In).
  assert (IL : incl (labels_of L) cl) by (eapply incl_tran; [apply left_part_incl|auto]).
  assert (IR : incl (labels_of R) cl) by (eapply incl_tran; [apply right_part_incl|auto]).
  assert (O : forall c, occurrences c (labels_of T) = (occurrences c (labels_of L) + occurrences c (labels_of R))%nat)
    by (intros; apply parts_occurrences).
  change rat with Nq. change total with qsum. split.
  - intros [E|E].
    + rewrite E in *. cbn [length Nat.add] in *. rewrite Len.
      assert (NR : Nq (length R) <> 0). { apply Nq_neq0. lia. }
      assert (G : gini (labels_of T) = gini (labels_of R)).
      { rewrite (gini_classes cl (labels_of T)), (gini_classes cl (labels_of R)) by auto. f_equal. f_equal.
        apply map_ext_in. intros c _. unfold fraction. rewrite O, !labels_length, Len. reflexivity. }
      rewrite G, Nq_0. cbn [app]. field. auto.
    + rewrite E in *. cbn [length Nat.add] in *. rewrite Nat.add_0_r in Len. rewrite Len.
      assert (NR : Nq (length L) <> 0). { apply Nq_neq0. lia. }
      assert (G : gini (labels_of T) = gini (labels_of L)).
      { rewrite (gini_classes cl (labels_of T)), (gini_classes cl (labels_of L)) by auto. f_equal. f_equal.
        apply map_ext_in. intros c _. unfold fraction. rewrite O, !labels_length, Len. cbn.
        now rewrite Nat.add_0_r. }
      rewrite G, Nq_0. field. auto.
  - intros NL NR.
    assert (PL : Nq (length L) <> 0). { apply Nq_neq0. destruct L; [contradiction|cbn; lia]. }
    assert (PR : Nq (length R) <> 0). { apply Nq_neq0. destruct R; [contradiction|cbn; lia]. }
    assert (PT : Nq (length L) + Nq (length R) <> 0).
    { rewrite <- Nq_plus. apply Nq_neq0. destruct L; [contradiction|cbn; lia]. }
    rewrite (gini_classes cl (labels_of L)), (gini_classes cl (labels_of R)), (gini_classes cl (labels_of T)) by auto.
    unfold fraction. change rat with Nq. rewrite !labels_length, Len, Nq_plus.
    set (a := Nq (length L)) in *. set (b := Nq (length R)) in *.
    assert (S1 : forall l k, k <> 0 -> qsum (map (fun c => Nq (occurrences c l) / k * (Nq (occurrences c l) / k)) cl)
                 = / (k * k) * qsum (map (fun c => Nq (occurrences c l) * Nq (occurrences c l)) cl)).
    { intros l k Hk. rewrite <- qsum_map_scal. apply qsum_map_ext. intros. field. auto. }
    rewrite !S1 by auto.
    rewrite (qsum_map_ext (fun c => Nq (occurrences c (labels_of T)) * Nq (occurrences c (labels_of T)))
              (fun c => (Nq (occurrences c (labels_of L)) * Nq (occurrences c (labels_of L)) +
                        Nq (occurrences c (labels_of R)) * Nq (occurrences c (labels_of R))) +
                        (1 + 1) * (Nq (occurrences c (labels_of L)) * Nq (occurrences c (labels_of R))))).
    2: { intros c _. rewrite O, Nq_plus. ring. }
    cbv zeta.
    rewrite (qsum_map_ext (fun c => (b * Nq (occurrences c (labels_of L)) - a * Nq (occurrences c (labels_of R))) *
                                     (b * Nq (occurrences c (labels_of L)) - a * Nq (occurrences c (labels_of R))))
              (fun c => ((b * b) * (Nq (occurrences c (labels_of L)) * Nq (occurrences c (labels_of L))) +
                        (a * a) * (Nq (occurrences c (labels_of R)) * Nq (occurrences c (labels_of R)))) +
                        (- (1 + 1) * a * b) * (Nq (occurrences c (labels_of L)) * Nq (occurrences c (labels_of R))))).
    2: { intros c _. ring. }
    rewrite !qsum_map_plus, !qsum_map_scal. field. auto.
Qed.

Lemma reduction_gini_nonpos T f v : T <> [] -> reduction gini T f v <= 0.
Proof.
  intros NT. destruct (reduction_gini_cases T f v NT) as [Z P].
  destruct (left_part f v T) as [|x L] eqn:EL; [rewrite Z; [apply qle_refl|auto]|].
  destruct (right_part f v T) as [|y R] eqn:ER; [rewrite Z; [apply qle_refl|auto]|].
  rewrite P by discriminate. rewrite <- EL, <- ER in *. clear Z P.
  match goal with |- - (?s / ?d) <= 0 => assert (0 <= s / d); [|qlra] end.
  apply qdiv_le_0.
  - change total with qsum. apply qsum_nonneg. intros z I. apply in_map_iff in I.
    destruct I as [c [<- _]]. apply qsquare_nonneg.
  - change rat with Nq. repeat apply qmult_lt_0; apply Nq_pos; try (rewrite EL; cbn; lia); try (rewrite ER; cbn; lia).
    + destruct T; [contradiction|cbn; lia].
    + destruct T; [contradiction|cbn; lia].
Qed.

(** ** Variance reductions *)
Lemma qsum_labels_parts f v T (g : Qc -> Qc) :
  qsum (map g (labels_of T)) = qsum (map g (labels_of (left_part f v T))) + qsum (map g (labels_of (right_part f v T))).
Proof.
  rewrite <- qsum_app, <- map_app, <- labels_of_app. apply qsum_perm. apply Permutation_map, Permutation_map, parts_perm.
Qed.

Lemma reduction_variance_formula T f v : T <> [] ->
  let L := left_part f v T in let R := right_part f v T in
  let d := mean (labels_of L) - mean (labels_of R) in
  reduction variance T f v =
    - (rat (length L) * rat (length R) / (rat (length T) * rat (length T)) * (d * d)).
Proof.
  intros NT L R. cbv zeta. unfold reduction. fold L R.
  assert (Len : length T = (length L + length R)%nat) by (symmetry; apply parts_length).
  assert (S1 := qsum_labels_parts f v T (fun y => y)). rewrite !map_id in S1. fold L R in S1.
  assert (S2 := qsum_labels_parts f v T (fun y => y * y)). fold L R in S2.
  assert (NTl : labels_of T <> []) by (destruct T; [contradiction|discriminate]).
  assert (PT : Nq (length T) <> 0) by (apply Nq_neq0; destruct T; [contradiction|cbn; lia]).
  change rat with Nq. change variance with qvar. change mean with qmean.
  rewrite (qvar_alt (labels_of T)) by auto. unfold qmean at 1 2. rewrite S1, S2, labels_length.
  rewrite Len, Nq_plus in PT.
  rewrite Len, Nq_plus. clear S1 S2.
  destruct L as [|x L'] eqn:EL; [|destruct R as [|y R'] eqn:ER].
  - destruct R as [|y R'] eqn:ER; [exfalso; apply PT; cbn [length]; rewrite Nq_0; ring|].
    rewrite (qvar_alt (labels_of (y :: R'))) by discriminate. change (labels_of []) with (@nil Qc).
    replace (qvar []) with 0 by reflexivity. set (m0 := qmean []). clearbody m0.
    unfold qmean. rewrite labels_length.
    cbn [length labels_of map qsum] in *. rewrite Nq_0 in *.
    assert (Nq (S (length R')) <> 0) by (apply Nq_neq0; lia).
    field. auto.
  - rewrite (qvar_alt (labels_of (x :: L'))) by discriminate. change (labels_of []) with (@nil Qc).
    replace (qvar []) with 0 by reflexivity. set (m0 := qmean []). clearbody m0.
    unfold qmean. rewrite labels_length.
    cbn [length labels_of map qsum] in *. rewrite Nq_0 in *.
    assert (Nq (S (length L')) <> 0) by (apply Nq_neq0; lia).
    field. auto.
  - rewrite (qvar_alt (labels_of (x :: L'))), (qvar_alt (labels_of (y :: R'))) by discriminate.
    unfold qmean. rewrite !labels_length.
    assert (Nq (length (x :: L')) <> 0) by (apply Nq_neq0; cbn; lia).
    assert (Nq (length (y :: R')) <> 0) by (apply Nq_neq0; cbn; lia).
    field. auto.
Qed.

Lemma reduction_variance_nonpos T f v : T <> [] -> reduction variance T f v <= 0.
Proof.
  intros NT. rewrite reduction_variance_formula by auto.
  set (d := mean _ - mean _). change rat with Nq.
  assert (0 <= Nq (length (left_part f v T)) * Nq (length (right_part f v T)) / (Nq (length T) * Nq (length T))).
  { apply qdiv_le_0.
    - apply qmult_le_0; apply Nq_nonneg.
    - assert (0 < Nq (length T)) by (apply Nq_pos; destruct T; [contradiction|cbn; lia]). now apply qmult_lt_0. }
  pose proof (qmult_le_0 _ _ H (qsquare_nonneg d)). qlra.
Qed.

Lemma reduction_variance_onesided T f v : T <> [] ->
  left_part f v T = [] \/ right_part f v T = [] -> reduction variance T f v = 0.
Proof.
  intros NT H. rewrite reduction_variance_formula by auto. change rat with Nq.
  destruct H as [-> | ->]; cbn [length]; rewrite Nq_0; unfold Qcdiv; ring.
Qed.

(** Property-level lemmas on histograms and criteria (C01-C07, C52, C61). *)
From Coq Require Import List Arith Bool ZArith QArith Qcanon Lia Permutation Sorted.
From Verif Require Import Base Num Rng Histogram Criteria Spec NumFacts ListFacts HistFacts HistAdd CritFacts ReductionFacts.
Import ListNotations.
Local Open Scope nat_scope.

(** Feed a histogram a sequence of batches. *)
Definition add_all (h : hist) (batches : list (list (list Qc) * list Qc)) : res hist :=
  foldM (fun h b => hist_add h (fst b) (snd b)) h batches.
(** All the samples of a sequence of batches. *)
Definition rows_of (batches : list (list (list Qc) * list Qc)) : table :=
  concat (map (fun b => combine (fst b) (snd b)) batches).

Lemma add_all_same batches h h' : add_all h batches = Ok h' ->
  h_class h' = h_class h /\ h_feat h' = h_feat h /\ h_classes h' = h_classes h /\
  h_nb h' = h_nb h /\ h_min h' = h_min h /\ h_max h' = h_max h /\ h_type h' = h_type h /\
  h_edges h' = h_edges h.
Proof.
  unfold add_all. revert h. induction batches as [|b bs IH]; intros h H; cbn in H.
  - injection H as <-. auto 10.
  - inv_ok H. apply hist_add_same in E. apply IH in H.
    destruct H as [? [? [? [? [? [? [? ?]]]]]]], E as [? [? [? [? [? [? [? ?]]]]]]].
    repeat split; congruence.
Qed.

Lemma add_all_class edges batches h T h' :
  add_all h batches = Ok h' -> h_class h = true -> h_edges h = Some edges -> agrees h edges ->
  NoDup (h_classes h) -> class_inv h edges T -> class_inv h' edges (T ++ rows_of batches).
Proof.
  unfold add_all. revert h T. induction batches as [|[X Y] bs IH]; intros h T H C E A ND I; cbn in H.
  - injection H as <-. unfold rows_of. cbn. now rewrite app_nil_r.
  - apply rbind_ok in H. destruct H as [h1 [E1 H]]. cbn in E1.
    destruct (hist_add_class _ _ _ _ _ _ E1 C E A ND I) as [_ I1].
    destruct (hist_add_same _ _ _ _ E1) as [S1 [S2 [S3 [S4 [S5 [S6 [S7 S8]]]]]]].
    unfold rows_of. cbn [map concat fst snd]. rewrite app_assoc. apply (IH h1); auto; try congruence.
    + eapply agrees_same; eauto.
Qed.

Lemma add_all_regr edges batches h T h' :
  add_all h batches = Ok h' -> h_class h = false -> h_edges h = Some edges -> agrees h edges ->
  let rel (T : table) (h : hist) :=
    (forall b e, nth_error edges b = Some e ->
       (exists p, nth_error (h_lpile h) b = Some p /\ p_n p = length (left_part (h_feat h) e T)
          /\ p_mean p = mean (labels_of (left_part (h_feat h) e T))) /\
       (exists p, nth_error (h_rpile h) b = Some p /\ p_n p = length (right_part (h_feat h) e T)
          /\ p_mean p = mean (labels_of (right_part (h_feat h) e T)))) /\
    p_n (h_cpile h) = length T /\ p_mean (h_cpile h) = mean (labels_of T) in
  rel T h -> rel (T ++ rows_of batches) h'.
Proof.
  intros H C E A rel. revert h T H C E A. unfold add_all.
  induction batches as [|[X Y] bs IH]; intros h T H C E A I; cbn in H.
  - injection H as <-. unfold rows_of. cbn [map concat]. now rewrite app_nil_r.
  - apply rbind_ok in H. destruct H as [h1 [E1 H]]. cbn in E1.
    destruct (hist_add_regr _ _ _ _ _ E1 C E A) as [_ [_ [_ [HP [_ [_ HC]]]]]].
    destruct (hist_add_same _ _ _ _ E1) as [S1 [S2 [S3 [S4 [S5 [S6 [S7 S8]]]]]]].
    unfold rows_of. cbn [map concat fst snd]. rewrite app_assoc. apply (IH h1); auto; try congruence.
    + eapply agrees_same; eauto.
    + destruct I as [I1 [I2 I3]]. unfold rel. split; [|].
      * intros b e Eb. rewrite S2. destruct (HP b e Eb) as [P1 P2].
        destruct (I1 b e Eb) as [[p [A1 [A2 A3]]] [q [B1 [B2 B3]]]].
        rewrite A1 in P1. rewrite B1 in P2. cbn in P1, P2.
        rewrite left_part_app, right_part_app, !labels_of_app. split.
        -- eexists. split; [exact P1|].
           rewrite <- labels_length in A2.
           destruct (update_bins_mean p _ (labels_of (left_part (h_feat h) e (combine X Y))) A2 A3) as [M1 M2].
           split; [|exact M2]. rewrite M1, !app_length, !labels_length. reflexivity.
        -- eexists. split; [exact P2|].
           rewrite <- labels_length in B2.
           destruct (update_bins_mean q _ (labels_of (right_part (h_feat h) e (combine X Y))) B2 B3) as [M1 M2].
           split; [|exact M2]. rewrite M1, !app_length, !labels_length. reflexivity.
      * rewrite HC. rewrite <- labels_length in I2.
        destruct (update_bins_mean (h_cpile h) _ (labels_of (combine X Y)) I2 I3) as [M1 M2].
        rewrite labels_of_app. split; [|exact M2]. rewrite M1, !app_length, !labels_length. reflexivity.
Qed.

(** ** C01 *)
Lemma bin_matches_edge ic f uf fd cl nb mn mx ty t h t' edges v b e :
  new_hist ic f uf fd cl nb mn mx ty t = Ok (h, t') -> good_bins ty nb mn mx uf ->
  h_edges h = Some edges -> nth_error edges b = Some e ->
  (get_bin (h_type h) (h_min h) (h_max h) (h_nb h) edges v <= b <-> (v <= e)%Qc).
Proof.
  intros H G E N. assert (A := new_hist_agrees _ _ _ _ _ _ _ _ _ _ _ _ _ H G E v b e N).
  rewrite <- Nat.leb_le, A. apply qle_spec.
Qed.

(** ** C02 *)
Lemma class_history ic f uf fd cl nb mn mx ty t h0 t' edges batches h :
  new_hist ic f uf fd cl nb mn mx ty t = Ok (h0, t') -> ic = true -> good_bins ty nb mn mx uf -> NoDup cl ->
  h_edges h0 = Some edges -> add_all h0 batches = Ok h ->
  let T := rows_of batches in
  length (h_left h) = length edges /\ length (h_right h) = length edges /\
  forall b e, nth_error edges b = Some e ->
    nth_error (h_left h) b = Some (map (fun c => occurrences c (labels_of (left_part f e T))) cl) /\
    nth_error (h_right h) b = Some (map (fun c => occurrences c (labels_of (right_part f e T))) cl).
Proof.
  intros H IC G ND E HA T. subst ic. destruct (new_hist_fields _ _ _ _ _ _ _ _ _ _ _ _ H) as [F1 [F2 [F3 F4]]].
  assert (I := class_inv_fresh h0 edges (new_hist_fresh _ _ _ _ _ _ _ _ _ _ _ _ H) F1 E).
  assert (A := new_hist_agrees _ _ _ _ _ _ _ _ _ _ _ _ _ H G E).
  assert (K := add_all_class edges batches h0 [] h HA F1 E A).
  rewrite F3 in K. specialize (K ND I). cbn [app] in K. fold T in K.
  destruct (add_all_same _ _ _ HA) as [_ [S2 [S3 _]]]. destruct K as [KL KR].
  rewrite S2, S3, F2, F3 in KL, KR. rewrite KL, KR. unfold lcounts, rcounts. rewrite !map_length.
  split; auto. split; auto. intros b e Eb. rewrite !nth_error_map, Eb. cbn. auto.
Qed.

Lemma hist_add_labels h X Y h' : hist_add h X Y = Ok h' -> h_class h = true -> incl Y (h_classes h).
Proof.
  unfold hist_add. intros H C. rewrite C in H. inv_ok H. intros y I.
  apply In_nth_error in I. destruct I as [i I].
  destruct (mapM_nth' _ _ _ _ _ E4 I) as [k [_ K]]. apply opt_res_ok in K. apply qindex_spec in K.
  eapply nth_error_In; eauto.
Qed.

Lemma add_all_labels batches h h' : add_all h batches = Ok h' -> h_class h = true ->
  incl (labels_of (rows_of batches)) (h_classes h).
Proof.
  unfold add_all. revert h. induction batches as [|[X Y] bs IH]; intros h H C; cbn in H.
  - intros y [].
  - apply rbind_ok in H. destruct H as [h1 [E1 H]]. cbn in E1.
    destruct (hist_add_same _ _ _ _ E1) as [S1 [S2 [S3 _]]].
    unfold rows_of. cbn [map concat fst snd]. rewrite labels_of_app. apply incl_app.
    + apply hist_add_labels in E1; auto. intros y I. apply E1. unfold labels_of in I.
      apply in_map_iff in I. destruct I as [[x z] [<- I]]. now apply in_combine_r in I.
    + rewrite <- S3. apply IH; auto. congruence.
Qed.

(** Nothing is lost: the two sides of every edge add up to the samples inserted. *)
Lemma class_history_total f uf fd cl nb mn mx ty t h0 t' edges batches h b e l r :
  new_hist true f uf fd cl nb mn mx ty t = Ok (h0, t') -> good_bins ty nb mn mx uf -> NoDup cl ->
  h_edges h0 = Some edges -> add_all h0 batches = Ok h ->
  nth_error edges b = Some e -> nth_error (h_left h) b = Some l -> nth_error (h_right h) b = Some r ->
  sum_nat l + sum_nat r = length (rows_of batches).
Proof.
  intros H G ND E HA Eb El Er.
  destruct (class_history _ _ _ _ _ _ _ _ _ _ _ _ _ _ _ H eq_refl G ND E HA) as [_ [_ K]].
  destruct (K b e Eb) as [K1 K2]. rewrite El in K1. rewrite Er in K2. injection K1 as ->. injection K2 as ->.
  destruct (new_hist_fields _ _ _ _ _ _ _ _ _ _ _ _ H) as [F1 [F2 [F3 F4]]].
  assert (I := add_all_labels _ _ _ HA F1). rewrite F3 in I.
  change (sum_nat (class_counts cl (labels_of (left_part f e (rows_of batches))))
          + sum_nat (class_counts cl (labels_of (right_part f e (rows_of batches)))) = length (rows_of batches)).
  rewrite !sum_class_counts, !labels_length; auto.
  - apply parts_length.
  - eapply incl_tran; [apply right_part_incl|auto].
  - eapply incl_tran; [apply left_part_incl|auto].
Qed.

(** ** C03, C04 *)
Lemma regr_one_batch f uf fd cl nb mn mx ty t h0 t' edges X Y h :
  new_hist false f uf fd cl nb mn mx ty t = Ok (h0, t') -> good_bins ty nb mn mx uf ->
  h_edges h0 = Some edges -> hist_add h0 X Y = Ok h ->
  let T := combine X Y in
  let exact (p : pile) (l : list Qc) := p_n p = length l /\ p_mean p = mean l /\ p_var p = variance l in
  length (h_lpile h) = length edges /\ length (h_rpile h) = length edges /\
  exact (h_cpile h) Y /\
  forall b e, nth_error edges b = Some e ->
    (exists p, nth_error (h_lpile h) b = Some p /\ exact p (labels_of (left_part f e T))) /\
    (exists p, nth_error (h_rpile h) b = Some p /\ exact p (labels_of (right_part f e T))).
Proof.
  intros H G E HA T exact. destruct (new_hist_fields _ _ _ _ _ _ _ _ _ _ _ _ H) as [F1 [F2 [F3 F4]]].
  assert (A := new_hist_agrees _ _ _ _ _ _ _ _ _ _ _ _ _ H G E).
  destruct (hist_add_regr _ _ _ _ _ HA F1 E A) as [LL _].
  assert (I := hist_add_regr_fresh _ _ _ _ _ HA F1 E A (new_hist_fresh _ _ _ _ _ _ _ _ _ _ _ _ H)).
  destruct I as [I1 [I2 I3]]. destruct (hist_add_same _ _ _ _ HA) as [_ [S2 _]].
  rewrite S2, F2 in I1, I2. rewrite I1, I2, I3. unfold lpiles, rpiles. rewrite !map_length.
  split; auto. split; auto. split.
  - unfold labels_of. rewrite map_snd_combine by auto. unfold exact. cbn. auto.
  - intros b e Eb. rewrite !nth_error_map, Eb. cbn. split; eexists; (split; [reflexivity|]); unfold exact; cbn; auto.
Qed.

Lemma regr_history f uf fd cl nb mn mx ty t h0 t' edges batches h :
  new_hist false f uf fd cl nb mn mx ty t = Ok (h0, t') -> good_bins ty nb mn mx uf ->
  h_edges h0 = Some edges -> add_all h0 batches = Ok h ->
  let T := rows_of batches in
  let right_so_far (p : pile) (l : list Qc) := p_n p = length l /\ p_mean p = mean l in
  right_so_far (h_cpile h) (labels_of T) /\
  forall b e, nth_error edges b = Some e ->
    (exists p, nth_error (h_lpile h) b = Some p /\ right_so_far p (labels_of (left_part f e T))) /\
    (exists p, nth_error (h_rpile h) b = Some p /\ right_so_far p (labels_of (right_part f e T))).
Proof.
  intros H G E HA T rs. destruct (new_hist_fields _ _ _ _ _ _ _ _ _ _ _ _ H) as [F1 [F2 [F3 F4]]].
  assert (A := new_hist_agrees _ _ _ _ _ _ _ _ _ _ _ _ _ H G E).
  destruct (new_hist_fresh _ _ _ _ _ _ _ _ _ _ _ _ H) as [FC F]. rewrite E, F1 in F. destruct F as [L [FL FR]].
  assert (R : forall b e, nth_error edges b = Some e -> nth_error (repeat pile0 (h_nb h0)) b = Some pile0).
  { intros b e N. assert (b < length edges) by (apply nth_error_Some; congruence).
    rewrite (nth_error_nth' _ pile0) by (rewrite repeat_length; lia). f_equal. apply nth_repeat. }
  assert (K := add_all_regr edges batches h0 [] h HA F1 E A). cbv zeta in K.
  destruct (add_all_same _ _ _ HA) as [_ [S2 _]].
  destruct K as [K1 [K2 K3]].
  { split; [|rewrite FC; auto]. intros b e Eb. rewrite FL, FR, (R b e Eb). cbn. split; exists pile0; auto. }
  cbn [app] in *. fold T in K1, K2, K3. rewrite S2, F2 in K1. unfold rs. rewrite labels_length. split; auto.
  intros b e Eb. rewrite !labels_length. apply K1. exact Eb.
Qed.

(** ** C06: strictness *)
Local Open Scope Qc_scope.
Lemma reduction_gini_zero_iff T f v : T <> [] ->
  left_part f v T <> [] -> right_part f v T <> [] ->
  (reduction gini T f v < 0 <->
   exists c, fraction c (labels_of (left_part f v T)) <> fraction c (labels_of (right_part f v T))).
Proof.
  intros NT NL NR. destruct (reduction_gini_cases T f v NT) as [_ P]. specialize (P NL NR).
  set (L := left_part f v T) in *. set (R := right_part f v T) in *.
  change rat with Nq in P. change total with qsum in P.
  assert (PL : 0 < Nq (length L)). { apply Nq_pos. destruct L; [contradiction|cbn; lia]. }
  assert (PR : 0 < Nq (length R)). { apply Nq_pos. destruct R; [contradiction|cbn; lia]. }
  assert (PT : 0 < Nq (length T)). { apply Nq_pos. destruct T; [contradiction|cbn; lia]. }
  set (g := fun c => Nq (length R) * Nq (occurrences c (labels_of L)) - Nq (length L) * Nq (occurrences c (labels_of R))) in *.
  assert (FG : forall c, fraction c (labels_of L) = fraction c (labels_of R) <-> g c = 0).
  { intros c. unfold fraction, g. rewrite !labels_length. change rat with Nq.
    assert (N1 := qpos_neq _ PL). assert (N2 := qpos_neq _ PR). split; intros H.
    - transitivity (Nq (length L) * Nq (length R) * (Nq (occurrences c (labels_of L)) / Nq (length L) - Nq (occurrences c (labels_of R)) / Nq (length R))).
      + field. auto.
      + rewrite H. ring.
    - assert (X : Nq (occurrences c (labels_of L)) / Nq (length L) - Nq (occurrences c (labels_of R)) / Nq (length R) = 0).
      { transitivity ((Nq (length R) * Nq (occurrences c (labels_of L)) - Nq (length L) * Nq (occurrences c (labels_of R))) / (Nq (length L) * Nq (length R))).
        - field. auto.
        - rewrite H. field. auto. }
      qlra. }
  set (S := qsum (map (fun c => let d := g c in d * d) (nodup Qc_eq_dec (labels_of T)))) in *.
  assert (S0 : 0 <= S).
  { apply qsum_nonneg. intros z I. apply in_map_iff in I. destruct I as [c [<- _]]. apply qsquare_nonneg. }
  set (D := Nq (length T) * Nq (length T) * Nq (length L) * Nq (length R)) in *.
  assert (DP : 0 < D) by (unfold D; repeat apply qmult_lt_0; auto).
  change (reduction gini T f v = - (S / D)) in P. rewrite P. split.
  - intros H.
    destruct (Exists_dec (fun c => g c <> 0) (nodup Qc_eq_dec (labels_of T))) as [X|X].
    { intros c. destruct (Qc_eq_dec (g c) 0); [right|left]; auto. }
    + apply Exists_exists in X. destruct X as [c [_ X]]. exists c. rewrite FG. exact X.
    + exfalso. assert (S = 0).
      { unfold S. rewrite (qsum_map_ext _ (fun _ => 0)). rewrite qsum_map_const. ring.
        intros c I. destruct (Qc_eq_dec (g c) 0) as [E|E]; [rewrite E; cbv zeta; ring|].
        exfalso. apply X. apply Exists_exists. exists c. auto. }
      rewrite H0 in H. unfold Qcdiv in H. rewrite Qcmult_0_l in H. revert H. intros. qlra.
  - intros [c Hc]. rewrite FG in Hc.
    assert (In c (nodup Qc_eq_dec (labels_of T))).
    { destruct (in_dec Qc_eq_dec c (nodup Qc_eq_dec (labels_of T))) as [I|I]; auto. exfalso. apply Hc.
      rewrite nodup_In in I. unfold g.
      rewrite !occurrences_zero. rewrite Nq_0. ring.
      - intros J. apply I. eapply right_part_incl; eauto.
      - intros J. apply I. eapply left_part_incl; eauto. }
    assert (0 < S).
    { destruct (q_total 0 S) as [?|[E|?]]; auto; [|exfalso; qlra]. exfalso.
      assert (Z := qsum_zero (map (fun c => let d := g c in d * d) (nodup Qc_eq_dec (labels_of T)))).
      assert (g c * g c = 0).
      { apply Z; auto.
        - intros z I. apply in_map_iff in I. destruct I as [c0 [<- _]]. apply qsquare_nonneg.
        - apply in_map_iff. exists c. auto. }
      apply qmult_eq_0 in H0. tauto. }
    assert (0 < S / D) by (now apply qdiv_lt_0). qlra.
Qed.

Lemma reduction_variance_zero_iff T f v : T <> [] ->
  left_part f v T <> [] -> right_part f v T <> [] ->
  (reduction variance T f v < 0 <-> mean (labels_of (left_part f v T)) <> mean (labels_of (right_part f v T))).
Proof.
  intros NT NL NR. rewrite reduction_variance_formula by auto. change rat with Nq.
  set (d := mean (labels_of (left_part f v T)) - mean (labels_of (right_part f v T))).
  assert (K : 0 < Nq (length (left_part f v T)) * Nq (length (right_part f v T)) / (Nq (length T) * Nq (length T))).
  { apply qdiv_lt_0; apply qmult_lt_0; apply Nq_pos.
    - destruct (left_part f v T); [contradiction|cbn; lia].
    - destruct (right_part f v T); [contradiction|cbn; lia].
    - destruct T; [contradiction|cbn; lia].
    - destruct T; [contradiction|cbn; lia]. }
  set (k := _ / _) in *. split.
  - intros H E. unfold d in H. rewrite E in H. replace (- (k * ((mean (labels_of (right_part f v T)) - mean (labels_of (right_part f v T))) * (mean (labels_of (right_part f v T)) - mean (labels_of (right_part f v T)))))) with 0 in H by ring.
    now apply qlt_irrefl in H.
  - intros H. assert (d <> 0). { unfold d. intros E. apply H. qlra. }
    assert (0 < d * d). { destruct (q_total 0 (d * d)) as [?|[E|?]]; auto.
      - exfalso. symmetry in E. apply qmult_eq_0 in E. tauto.
      - exfalso. pose proof (qsquare_nonneg d). qlra. }
    pose proof (qmult_lt_0 _ _ K H1). qlra.
Qed.

(** ** C61 *)
Lemma prob_var_whole n p : (2 <= n)%nat -> prob_var (Some n) n p = Fin 0.
Proof.
  intros H. unfold prob_var. cbn [xdiv].
  assert (N1 : Nq n <> 0) by (apply Nq_neq0; lia). apply qeq_false in N1. rewrite N1.
  replace (Z.of_nat n - Z.of_nat n)%Z with 0%Z by lia.
  destruct (qeq (Zq (Z.of_nat n - 1)) 0) eqn:E.
  - apply qeq_spec in E. rewrite <- Zq_0 in E. apply Zq_inj in E. lia.
  - cbn. f_equal. rewrite Zq_0. unfold Qcdiv. ring.
Qed.
Lemma xsum_zeros l : (forall x, In x l -> x = Fin 0) -> xsum l = Fin 0.
Proof.
  induction l as [|a l IH]; intros H; cbn; auto. change (fold_right xadd (Fin 0) l) with (xsum l).
  rewrite IH by (intros; apply H; now right). rewrite (H a) by now left. cbn. f_equal.
Qed.
Lemma get_gini_whole_var counts n g v : (2 <= n)%nat ->
  get_gini counts (Some n) (Some n) = Ok (g, v) -> v = Fin 0.
Proof.
  intros H. unfold get_gini. cbn [opt_n]. destruct (class_probs counts n) eqn:E; [discriminate|].
  rewrite <- E. intros K. apply ok_pair_inv in K. destruct K as [_ <-].
  apply xsum_zeros. intros x I. apply in_map_iff in I. destruct I as [y [<- _]].
  rewrite prob_var_whole by auto. cbn. f_equal. ring.
Qed.
Lemma get_mse_whole_var a mse v : get_mse a (Some (p_n a)) = Ok (mse, v) -> v = 0.
Proof.
  unfold get_mse. rewrite Nat.leb_refl. cbn [guard rbind].
  cbv zeta. set (N := Nq (p_n a)). intros H. apply ok_pair_inv in H. destruct H as [_ <-].
  assert (Z : forall y d k, xmul (xdiv (Fin (N * (N - N) * y)) (Fin d)) (Fin k) = Fin 0 \/ xmul (xdiv (Fin (N * (N - N) * y)) (Fin d)) (Fin k) = NaN).
  { intros y d k. replace (N * (N - N) * y) with 0 by ring. cbn [xdiv].
    destruct (qeq d 0); cbn; [right; reflexivity|left]. f_equal. unfold Qcdiv. ring. }
  assert (O : forall x k, xmul (xopp x) (Fin k) = xopp (xmul x (Fin k))).
  { intros x k. destruct x; cbn; auto.
    - f_equal. ring.
    - unfold xinf_mul. destruct (xsign k); auto.
    - unfold xinf_mul. destruct (xsign k); auto. }
  rewrite O.
  match goal with |- nan_to_num (xadd (xmul (xdiv (Fin (N * (N - N) * ?y)) (Fin ?d)) (Fin ?k)) (xopp (xmul (xdiv (Fin (N * (N - N) * ?y2)) (Fin ?d2)) (Fin ?k2)))) = 0 =>
    destruct (Z y d k) as [-> | ->], (Z y2 d2 k2) as [-> | ->] end; cbn; try reflexivity.
Qed.

(** The variances of a histogram holding the whole population. *)
Lemma whole_population_variances M m h edges T bins irs vs i b vv e :
  h_class h = true -> class_inv h edges T -> NoDup (h_classes h) -> incl (labels_of T) (h_classes h) ->
  (m = GINI \/ m = MAuto) ->
  get_impurity_reductions M m h bins (Some (length T)) = Ok (irs, vs) ->
  nth_error bins i = Some b -> nth_error vs i = Some vv -> nth_error edges b = Some e ->
  (2 <= length (left_part (h_feat h) e T))%nat -> (2 <= length (right_part (h_feat h) e T))%nat ->
  vv = Fin 0.
Proof.
  intros C [IL IR] ND IN Hm H Hb Hv He NL NR. unfold get_impurity_reductions in H. rewrite C in H.
  apply rbind_ok in H. destruct H as [[] [G H]].
  apply rbind_ok in H. destruct H as [l0 [EL0 H]].
  apply rbind_ok in H. destruct H as [r0 [ER0 H]].
  apply rbind_ok in H. destruct H as [sides [ES H]].
  apply nth_res_ok in EL0. apply nth_res_ok in ER0.
  rewrite IL in EL0. rewrite IR in ER0. unfold lcounts in EL0. unfold rcounts in ER0.
  rewrite nth_error_map in EL0, ER0.
  destruct (nth_error edges 0) as [e0|] eqn:E0; [|discriminate]. cbn in EL0, ER0.
  injection EL0 as <-. injection ER0 as <-.
  set (cl := h_classes h) in *. set (f := h_feat h) in *.
  assert (IL' : forall e, incl (labels_of (left_part f e T)) cl) by (intros; eapply incl_tran; [apply left_part_incl|auto]).
  assert (IR' : forall e, incl (labels_of (right_part f e T)) cl) by (intros; eapply incl_tran; [apply right_part_incl|auto]).
  assert (NT : (4 <= length T)%nat) by (rewrite <- (parts_length f e T); lia).
  rewrite !sum_class_counts, !labels_length, parts_length in ES by auto.
  assert (SS : forall k, side_size (Some (length T)) k (length T) = Some k).
  { intros k. cbn. rewrite Nat.div_mul; auto. lia. }
  assert (CI : forall cs n g v, (2 <= n)%nat -> class_impurity M m cs (Some n) n = Ok (g, v) -> v = Fin 0).
  { intros cs n g v Hn K. destruct Hm as [->| ->]; cbn in K; eapply get_gini_whole_var; eauto. }
  destruct (mapM_nth' _ _ _ _ _ ES Hb) as [s [Hs K]].
  apply rbind_ok in K. destruct K as [l [K1 K]].
  apply rbind_ok in K. destruct K as [r [K2 K]].
  apply nth_res_ok in K1. apply nth_res_ok in K2.
  rewrite IL in K1. rewrite IR in K2. unfold lcounts in K1. unfold rcounts in K2.
  rewrite nth_error_map, He in K1. rewrite nth_error_map, He in K2. cbn in K1, K2.
  injection K1 as <-. injection K2 as <-. rewrite !SS, !sum_class_counts, !labels_length in K by auto.
  apply rbind_ok in K. destruct K as [[] [_ K]].
  apply rbind_ok in K. destruct K as [[gl vl] [K1 K]].
  apply rbind_ok in K. destruct K as [[gr vr] [K2 K]].
  apply CI in K1; auto. apply CI in K2; auto. subst vl vr. injection K as <-.
  assert (LAST : forall ab n, In (ab, n) sides -> n = length T).
  { intros ab n I. apply In_nth_error in I. destruct I as [j I].
    destruct (mapM_nth _ _ _ _ _ ES I) as [b' [Hb' K]].
    apply rbind_ok in K. destruct K as [l [K1 K]].
    apply rbind_ok in K. destruct K as [r [K2 K]].
    apply nth_res_ok in K1. apply nth_res_ok in K2.
    rewrite IL in K1. rewrite IR in K2. unfold lcounts in K1. unfold rcounts in K2.
    rewrite nth_error_map in K1, K2.
    destruct (nth_error edges b') as [e'|] eqn:E'; [|discriminate]. cbn in K1, K2.
    injection K1 as <-. injection K2 as <-. rewrite !sum_class_counts, !labels_length in K by auto.
    inv_ok K. subst. apply parts_length. }
  destruct (rev sides) as [|[ab lastn] rs] eqn:RS; [discriminate|].
  assert (LN : lastn = length T). { eapply LAST. apply in_rev. rewrite RS. now left. }
  subst lastn. apply rbind_ok in H. destruct H as [[cg cv] [EC H]]. apply CI in EC; [|lia]. subst cv.
  apply ok_pair_inv in H. destruct H as [_ <-]. rewrite nth_error_map, Hs in Hv. cbn in Hv.
  injection Hv as <-. f_equal. rewrite !Qcmult_0_r. reflexivity.
Qed.

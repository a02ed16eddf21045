(** Remaining property-level lemmas on histograms. *)
From Coq Require Import List Arith Bool ZArith QArith Qcanon Lia Permutation Sorted.
From Verif Require Import Base Num Rng Histogram Criteria Spec NumFacts ListFacts HistFacts HistAdd CritFacts ReductionFacts HistProps Samples.
Import ListNotations.
Local Open Scope nat_scope.

Lemma bin_matches_edge_all ic f uf fd cl nb mn mx ty t h t' edges v b e :
  new_hist ic f uf fd cl nb mn mx ty t = Ok (h, t') ->
  (ty = LINEAR /\ (mn <= mx)%Qc /\ 2 <= nb) \/ ty = RANDOM \/ ty = IDENTITY \/
  (ty = DISCRETE /\ exists l, uf = Some (DList l) /\ StronglySorted Qcle l) ->
  h_edges h = Some edges -> nth_error edges b = Some e ->
  (get_bin (h_type h) (h_min h) (h_max h) (h_nb h) edges v <= b <-> (v <= e)%Qc).
Proof.
  intros H C E N. eapply bin_matches_edge; eauto.
  destruct C as [[-> [? ?]]|[->|[->|[-> [l [-> S]]]]]]; cbn; auto.
Qed.

Lemma single_bin_wrong : exists h t' edges v e,
  new_hist true 0 None [] [z 0; z 1] 1 (z 0) (z 10) LINEAR [] = Ok (h, t') /\
  h_edges h = Some edges /\ nth_error edges 0 = Some e /\
  get_bin (h_type h) (h_min h) (h_max h) (h_nb h) edges v <= 0 /\ ~ (v <= e)%Qc.
Proof.
  do 2 eexists. eexists. exists (z 5). eexists. split; [reflexivity|]. split; [reflexivity|].
  split; [reflexivity|]. split; [apply Nat.leb_le; vm_compute; reflexivity|].
  intros L. apply qle_spec in L. vm_compute in L. discriminate.
Qed.

Lemma linear_edges_spec ic f uf fd cl nb mn mx t h t' edges :
  new_hist ic f uf fd cl nb mn mx LINEAR t = Ok (h, t') -> h_edges h = Some edges ->
  mn <> mx /\ length edges = nb /\
  (forall b e, nth_error edges b = Some e ->
     (e * rat (nb - 1) = mn * rat (nb - 1) + (mx - mn) * rat b)%Qc \/ nb = 1) /\
  (1 <= nb -> nth_error edges 0 = Some mn) /\
  (2 <= nb -> nth_error edges (nb - 1) = Some mx).
Proof.
  unfold new_hist. destruct (qeq mn mx) eqn:Q; intros H E; injection H as <- _; cbn in E; [discriminate|].
  injection E as <-. apply qeq_false in Q. split; auto. split; [apply linear_bin_length|].
  assert (Z : forall b, b < nb -> nth_error (linear_bin mn mx nb) b = Some (mn + (mx - mn) * (Nq b / Nq (nb - 1)))%Qc).
  { intros b L. destruct (nth_error (linear_bin mn mx nb) b) as [e|] eqn:E.
    - apply linear_bin_nth in E. destruct E as [_ ->]. reflexivity.
    - apply nth_error_None in E. rewrite linear_bin_length in E. lia. }
  split; [|split].
  - intros b e N. apply linear_bin_nth in N. destruct N as [L ->]. change rat with Nq.
    destruct (Nat.eq_dec nb 1) as [->|NE]; auto. left.
    assert (Nq (nb - 1) <> 0)%Qc by (apply Nq_neq0; lia). field. auto.
  - intros L. rewrite Z by lia. f_equal. rewrite Nq_0. unfold Qcdiv. ring.
  - intros L. rewrite Z by lia. f_equal. assert (Nq (nb - 1) <> 0)%Qc by (apply Nq_neq0; lia). field. auto.
Qed.

Lemma identity_edges_spec ic f uf fd cl nb mn mx t h t' edges :
  new_hist ic f uf fd cl nb mn mx IDENTITY t = Ok (h, t') -> h_edges h = Some edges ->
  StronglySorted Qclt edges /\ (forall x, In x edges <-> In x fd).
Proof.
  cbn. intros H E. injection H as <- _. injection E as <-. split; [apply unique_sorted|apply unique_in].
Qed.

Lemma uniforms_top lo hi k t x : (lo <= hi)%Qc -> In x (fst (uniforms lo hi k t)) -> x = hi -> lo = hi.
Proof.
  intros H. revert t. induction k as [|k IH]; intros t; cbn [uniforms]; [intros []|].
  destruct (draw t) as [a t1], (draw t1) as [b t2].
  specialize (IH t2). destruct (uniforms lo hi k t2) as [l t3]. cbn in *.
  intros [<-|I]; auto. intros E.
  assert (P : (0 < Nq (a + b + 1))%Qc) by (apply Nq_pos; lia).
  assert (U : (Nq a / Nq (a + b + 1) < 1)%Qc).
  { apply qdiv_lt_iff; auto. rewrite Qcmult_1_l. apply Nq_lt. lia. }
  set (u := (Nq a / Nq (a + b + 1))%Qc) in *. clearbody u. clear - H E U.
  assert (X : ((hi - lo) * (1 - u) = 0)%Qc) by (transitivity (hi - (lo + (hi - lo) * u))%Qc; [ring|rewrite E; ring]).
  apply qmult_eq_0 in X. destruct X; qlra.
Qed.
Lemma random_edges_spec ic f uf fd cl nb mn mx t h t' edges :
  new_hist ic f uf fd cl nb mn mx RANDOM t = Ok (h, t') -> h_edges h = Some edges -> (mn <= mx)%Qc ->
  length edges = nb /\ StronglySorted Qcle edges /\
  (forall x, In x edges -> (mn <= x)%Qc /\ (x <= mx)%Qc /\ (x = mx -> mn = mx)).
Proof.
  intros H E L. cbn in H. unfold random_bin in H.
  pose proof (uniforms_length mn mx nb t) as UL. pose proof (fun x => uniforms_range mn mx nb t x L) as UR.
  pose proof (fun x => uniforms_top mn mx nb t x L) as UT.
  destruct (uniforms mn mx nb t) as [l t1]. injection H as <- _. injection E as <-. cbn in *.
  rewrite qsort_length. split; auto. split; [apply qsort_sorted|].
  intros x I. assert (In x l). { eapply Permutation_in; [|exact I]. apply qsort_perm. }
  destruct (UR x H). split; [assumption|]. split; [assumption|]. exact (UT x H).
Qed.

Lemma class_history_true f uf fd cl nb mn mx ty t h0 t' edges batches h :
  new_hist true f uf fd cl nb mn mx ty t = Ok (h0, t') -> good_bins ty nb mn mx uf -> NoDup cl ->
  h_edges h0 = Some edges -> add_all h0 batches = Ok h ->
  let T := rows_of batches in
  length (h_left h) = length edges /\ length (h_right h) = length edges /\
  forall b e, nth_error edges b = Some e ->
    nth_error (h_left h) b = Some (map (fun c => occurrences c (labels_of (left_part f e T))) cl) /\
    nth_error (h_right h) b = Some (map (fun c => occurrences c (labels_of (right_part f e T))) cl).
Proof. intros H. apply (class_history _ _ _ _ _ _ _ _ _ _ _ _ _ _ _ H eq_refl). Qed.

Lemma merge_variance p l1 l2 :
  p_n p = length l1 -> p_mean p = mean l1 -> p_var p = variance l1 ->
  variance l1 <> 0%Qc -> variance l2 <> 0%Qc -> l1 <> [] ->
  p_var (update_bins p l2) = variance (l1 ++ l2).
Proof.
  intros H1 H2 H3 V1 V2 N1. destruct l2 as [|a l2].
  - cbn. now rewrite app_nil_r.
  - unfold update_bins. cbn [p_var]. rewrite H1, H2, H3. apply welford_correct; auto. discriminate.
Qed.

Lemma batch_variance_wrong : exists h0 t' h,
  new_hist false 0 None [] [] 2 (z 0) (z 1) LINEAR [] = Ok (h0, t') /\
  add_all h0 [([[z 0]], [z 1]); ([[z 0]], [z 3])] = Ok h /\
  p_var (h_cpile h) = 0%Qc /\ variance (labels_of (rows_of [([[z 0]], [z 1]); ([[z 0]], [z 3])])) = 1%Qc.
Proof.
  do 3 eexists. split; [reflexivity|]. split; [reflexivity|].
  split; apply qeq_spec; vm_compute; reflexivity.
Qed.

Lemma get_gini_ok counts pop n : counts <> [] -> exists g v, get_gini counts pop n = Ok (g, v).
Proof. intros H. destruct (get_gini_total counts pop n H) as [[g v] E]. eauto. Qed.

(** ** From construction to the invariants *)
Lemma built_class f uf fd cl nb mn mx ty t h0 t' edges batches h :
  new_hist true f uf fd cl nb mn mx ty t = Ok (h0, t') -> good_bins ty nb mn mx uf -> NoDup cl ->
  h_edges h0 = Some edges -> add_all h0 batches = Ok h ->
  h_class h = true /\ h_feat h = f /\ h_classes h = cl /\ class_inv h edges (rows_of batches) /\
  incl (labels_of (rows_of batches)) cl.
Proof.
  intros H G ND E HA. destruct (new_hist_fields _ _ _ _ _ _ _ _ _ _ _ _ H) as [F1 [F2 [F3 F4]]].
  assert (I := class_inv_fresh h0 edges (new_hist_fresh _ _ _ _ _ _ _ _ _ _ _ _ H) F1 E).
  assert (A := new_hist_agrees _ _ _ _ _ _ _ _ _ _ _ _ _ H G E).
  assert (K := add_all_class edges batches h0 [] h HA F1 E A).
  rewrite F3 in K. specialize (K ND I). cbn [app] in K.
  destruct (add_all_same _ _ _ HA) as [S1 [S2 [S3 _]]].
  assert (L := add_all_labels _ _ _ HA F1). rewrite F3 in L.
  rewrite S1, S2, S3. auto.
Qed.
Lemma built_regr f uf fd cl nb mn mx ty t h0 t' edges X Y h :
  new_hist false f uf fd cl nb mn mx ty t = Ok (h0, t') -> good_bins ty nb mn mx uf ->
  h_edges h0 = Some edges -> hist_add h0 X Y = Ok h ->
  h_class h = false /\ h_feat h = f /\ regr_inv h edges (combine X Y) /\ length X = length Y.
Proof.
  intros H G E HA. destruct (new_hist_fields _ _ _ _ _ _ _ _ _ _ _ _ H) as [F1 [F2 [F3 F4]]].
  assert (A := new_hist_agrees _ _ _ _ _ _ _ _ _ _ _ _ _ H G E).
  destruct (hist_add_regr _ _ _ _ _ HA F1 E A) as [LL _].
  assert (I := hist_add_regr_fresh _ _ _ _ _ HA F1 E A (new_hist_fresh _ _ _ _ _ _ _ _ _ _ _ _ H)).
  destruct (hist_add_same _ _ _ _ HA) as [S1 [S2 _]]. rewrite S1, S2. auto.
Qed.

Lemma class_rows_nonempty M m h edges T bins pop irs vs i b :
  h_class h = true -> class_inv h edges T -> NoDup (h_classes h) -> incl (labels_of T) (h_classes h) ->
  get_impurity_reductions M m h bins pop = Ok (irs, vs) -> nth_error bins i = Some b -> T <> [].
Proof.
  intros C [IL IR] ND IN H Hb NT. subst T. unfold get_impurity_reductions in H. rewrite C in H.
  apply rbind_ok in H. destruct H as [[] [_ H]].
  apply rbind_ok in H. destruct H as [l0 [EL0 H]].
  apply rbind_ok in H. destruct H as [r0 [ER0 H]].
  apply rbind_ok in H. destruct H as [sides [ES _]].
  apply nth_res_ok in EL0. apply nth_res_ok in ER0. rewrite IL in EL0. rewrite IR in ER0.
  unfold lcounts in EL0. unfold rcounts in ER0. rewrite nth_error_map in EL0, ER0.
  destruct (nth_error edges 0) as [e0|]; [|discriminate]. cbn in EL0, ER0.
  destruct (mapM_nth' _ _ _ _ _ ES Hb) as [s [_ K]].
  apply rbind_ok in K. destruct K as [l [_ K]]. apply rbind_ok in K. destruct K as [r [_ K]].
  apply rbind_ok in K. destruct K as [[] [G _]]. apply guard_ok in G.
  injection EL0 as <-. injection ER0 as <-.
  rewrite !sum_class_counts in G; auto; cbn in G; try discriminate; intros x [].
Qed.
Lemma regr_rows_nonempty M m h edges T bins pop irs vs i b :
  h_class h = false -> regr_inv h edges T ->
  get_impurity_reductions M m h bins pop = Ok (irs, vs) -> nth_error bins i = Some b -> T <> [].
Proof.
  intros C [IL [IR _]] H Hb NT. subst T. unfold get_impurity_reductions in H. rewrite C in H.
  apply rbind_ok in H. destruct H as [[] [_ H]].
  apply rbind_ok in H. destruct H as [l0 [EL0 H]].
  apply rbind_ok in H. destruct H as [r0 [ER0 H]].
  apply rbind_ok in H. destruct H as [sides [ES _]].
  apply nth_res_ok in EL0. apply nth_res_ok in ER0. rewrite IL in EL0. rewrite IR in ER0.
  unfold lpiles in EL0. unfold rpiles in ER0. rewrite nth_error_map in EL0, ER0.
  destruct (nth_error edges 0) as [e0|]; [|discriminate]. cbn in EL0, ER0.
  destruct (mapM_nth' _ _ _ _ _ ES Hb) as [s [_ K]].
  apply rbind_ok in K. destruct K as [l [_ K]]. apply rbind_ok in K. destruct K as [r [_ K]].
  apply rbind_ok in K. destruct K as [[] [G _]]. apply guard_ok in G.
  injection EL0 as <-. injection ER0 as <-. cbn in G. discriminate.
Qed.

Lemma reported_gini f uf fd cl nb mn mx ty t h0 t' edges batches h M bins pop irs vs i b e ir :
  new_hist true f uf fd cl nb mn mx ty t = Ok (h0, t') -> good_bins ty nb mn mx uf -> NoDup cl ->
  h_edges h0 = Some edges -> add_all h0 batches = Ok h ->
  let T := rows_of batches in
  get_impurity_reductions M GINI h bins pop = Ok (irs, vs) ->
  nth_error bins i = Some b -> nth_error edges b = Some e -> nth_error irs i = Some ir ->
  ir = reduction gini T f e /\ (ir <= 0)%Qc /\
  ((ir < 0)%Qc <->
     exists c, 0 < length (left_part f e T) /\ 0 < length (right_part f e T) /\
       fraction c (labels_of (left_part f e T)) <> fraction c (labels_of (right_part f e T))).
Proof.
  intros H G ND E HA T HR Hb He Hi.
  destruct (built_class _ _ _ _ _ _ _ _ _ _ _ _ _ _ H G ND E HA) as [C [F [CL [CI IN]]]]. fold T in CI, IN.
  rewrite <- CL in ND, IN.
  assert (NT := class_rows_nonempty _ _ _ _ _ _ _ _ _ _ _ C CI ND IN HR Hb).
  destruct (class_reductions_spec _ _ _ _ _ _ _ _ _ C CI ND IN HR) as [_ [_ K]].
  destruct (K i b ir Hb Hi) as [e' [Ee Er]]. rewrite He in Ee. injection Ee as <-.
  rewrite F in Er. cbn in Er. split; auto. rewrite Er. split; [now apply reduction_gini_nonpos|].
  destruct (left_part f e T) as [|x L] eqn:EL.
  { destruct (reduction_gini_cases T f e NT) as [Z _]. rewrite Z by auto. split.
    - intros K2. now apply qlt_irrefl in K2.
    - intros [c [K2 _]]. cbn in K2. lia. }
  destruct (right_part f e T) as [|y R] eqn:ER.
  { destruct (reduction_gini_cases T f e NT) as [Z _]. rewrite Z by auto. split.
    - intros K2. now apply qlt_irrefl in K2.
    - intros [c [_ [K2 _]]]. cbn in K2. lia. }
  assert (NL : left_part f e T <> []) by (rewrite EL; discriminate).
  assert (NR : right_part f e T <> []) by (rewrite ER; discriminate).
  rewrite (reduction_gini_zero_iff T f e NT NL NR). rewrite EL, ER. cbn [length]. split.
  - intros [c K2]. exists c. repeat split; auto; lia.
  - intros [c [_ [_ K2]]]. eauto.
Qed.

Lemma reported_variance f uf fd cl nb mn mx ty t h0 t' edges X Y h M bins irs vs i b e ir :
  new_hist false f uf fd cl nb mn mx ty t = Ok (h0, t') -> good_bins ty nb mn mx uf ->
  h_edges h0 = Some edges -> hist_add h0 X Y = Ok h ->
  let T := combine X Y in
  let L := left_part f e T in let R := right_part f e T in
  get_impurity_reductions M MSE h bins (Some (length T)) = Ok (irs, vs) ->
  nth_error bins i = Some b -> nth_error edges b = Some e -> nth_error irs i = Some ir ->
  ir = reduction variance T f e /\
  (L = [] \/ R = [] -> ir = 0%Qc) /\
  (L <> [] -> R <> [] ->
     let d := (mean (labels_of L) - mean (labels_of R))%Qc in
     ir = (- (rat (length L) * rat (length R) / (rat (length T) * rat (length T)) * (d * d)))%Qc /\
     ((ir < 0)%Qc <-> mean (labels_of L) <> mean (labels_of R))) /\
  (ir <= 0)%Qc.
Proof.
  intros H G E HA T L R HR Hb He Hi.
  destruct (built_regr _ _ _ _ _ _ _ _ _ _ _ _ _ _ _ H G E HA) as [C [F [RI LL]]]. fold T in RI.
  assert (NT := regr_rows_nonempty _ _ _ _ _ _ _ _ _ _ _ C RI HR Hb).
  destruct (regr_reductions_spec _ _ _ _ _ _ _ _ C RI NT HR) as [_ [_ K]].
  destruct (K i b ir Hb Hi) as [e' [Ee Er]]. rewrite He in Ee. injection Ee as <-.
  rewrite F in Er. split; auto. rewrite Er. split; [|split].
  - intros D. apply reduction_variance_onesided; auto.
  - intros NL NR. cbv zeta. split; [now apply reduction_variance_formula|].
    now apply reduction_variance_zero_iff.
  - now apply reduction_variance_nonpos.
Qed.

Lemma gini_variance_collapses f uf fd cl nb mn mx ty t h0 t' edges batches h M bins irs vs i b e v :
  new_hist true f uf fd cl nb mn mx ty t = Ok (h0, t') -> good_bins ty nb mn mx uf -> NoDup cl ->
  h_edges h0 = Some edges -> add_all h0 batches = Ok h ->
  let T := rows_of batches in
  get_impurity_reductions M GINI h bins (Some (length T)) = Ok (irs, vs) ->
  nth_error bins i = Some b -> nth_error edges b = Some e -> nth_error vs i = Some v ->
  2 <= length (left_part f e T) -> 2 <= length (right_part f e T) -> v = Fin 0.
Proof.
  intros H G ND E HA T HR Hb He Hi NL NR.
  destruct (built_class _ _ _ _ _ _ _ _ _ _ _ _ _ _ H G ND E HA) as [C [F [CL [CI IN]]]]. fold T in CI, IN.
  rewrite <- CL in ND, IN. rewrite <- F in NL, NR.
  apply (whole_population_variances M GINI h edges T bins irs vs i b v e); auto.
Qed.

Lemma side_size_whole k n : n <> 0 -> side_size (Some n) k n = Some k.
Proof. intros H. cbn. now rewrite Nat.div_mul. Qed.

Lemma mse_variance_collapses f uf fd cl nb mn mx ty t h0 t' edges X Y h M bins irs vs i b e v :
  new_hist false f uf fd cl nb mn mx ty t = Ok (h0, t') -> good_bins ty nb mn mx uf ->
  h_edges h0 = Some edges -> hist_add h0 X Y = Ok h ->
  get_impurity_reductions M MSE h bins (Some (length X)) = Ok (irs, vs) ->
  nth_error bins i = Some b -> nth_error edges b = Some e -> nth_error vs i = Some v -> v = Fin 0.
Proof.
  intros H G E HA HR Hb He Hi.
  destruct (built_regr _ _ _ _ _ _ _ _ _ _ _ _ _ _ _ H G E HA) as [C [F [RI LL]]].
  assert (NT := regr_rows_nonempty _ _ _ _ _ _ _ _ _ _ _ C RI HR Hb).
  set (T := combine X Y) in *.
  assert (LT : length X = length T) by (unfold T; rewrite combine_length; lia). rewrite LT in HR.
  assert (LT0 : length T <> 0) by (destruct T; [contradiction|discriminate]).
  destruct RI as [IL [IR IC]]. unfold get_impurity_reductions in HR. rewrite C in HR.
  apply rbind_ok in HR. destruct HR as [[] [_ HR]].
  apply rbind_ok in HR. destruct HR as [l0 [EL0 HR]].
  apply rbind_ok in HR. destruct HR as [r0 [ER0 HR]].
  apply rbind_ok in HR. destruct HR as [sides [ES HR]].
  apply rbind_ok in HR. destruct HR as [[cg cv] [EC HR]].
  apply ok_pair_inv in HR. destruct HR as [_ <-].
  apply nth_res_ok in EL0. apply nth_res_ok in ER0. rewrite IL in EL0. rewrite IR in ER0.
  unfold lpiles in EL0. unfold rpiles in ER0. rewrite nth_error_map in EL0, ER0.
  destruct (nth_error edges 0) as [e0|]; [|discriminate]. cbn in EL0, ER0.
  injection EL0 as <-. injection ER0 as <-. cbn [pile_of p_n] in ES.
  rewrite !labels_length, parts_length in ES.
  assert (CI : forall p k g w, p_n p = k -> regr_impurity MSE p (Some k) = Ok (g, w) -> w = Fin 0).
  { intros p k g w <- K. cbn in K. apply rbind_ok in K. destruct K as [[a b0] [K1 K]].
    apply get_mse_whole_var in K1. subst b0. apply ok_pair_inv in K. destruct K as [_ <-]. reflexivity. }
  apply CI in EC; [|rewrite IC; cbn; apply labels_length]. subst cv.
  destruct (mapM_nth' _ _ _ _ _ ES Hb) as [s [Hs K]].
  apply rbind_ok in K. destruct K as [l [K1 K]].
  apply rbind_ok in K. destruct K as [r [K2 K]].
  apply nth_res_ok in K1. apply nth_res_ok in K2.
  rewrite IL in K1. rewrite IR in K2. unfold lpiles in K1. unfold rpiles in K2.
  rewrite nth_error_map, He in K1. rewrite nth_error_map, He in K2. cbn in K1, K2.
  injection K1 as <-. injection K2 as <-. cbn [pile_of p_n] in K. rewrite !side_size_whole in K by auto.
  apply rbind_ok in K. destruct K as [[] [_ K]].
  apply rbind_ok in K. destruct K as [[gl vl] [K1 K]].
  apply rbind_ok in K. destruct K as [[gr vr] [K2 K]].
  apply CI in K1; auto. apply CI in K2; auto. subst vl vr. injection K as <-.
  rewrite nth_error_map, Hs in Hi. cbn in Hi. injection Hi as <-. f_equal. rewrite !Qcmult_0_r. reflexivity.
Qed.

Lemma single_row_side_nan : exists h0 t' h irs v1 v2,
  new_hist true 0 None [] [z 0; z 1] 2 (z 0) (z 3) LINEAR [] = Ok (h0, t') /\
  add_all h0 [([[z 0]; [z 1]; [z 2]; [z 3]], [z 0; z 0; z 1; z 1])] = Ok h /\
  get_impurity_reductions M0 GINI h [0; 1] (Some 4) = Ok (irs, [v1; v2]) /\ v1 = NaN.
Proof.
  do 6 eexists. split; [reflexivity|]. split; [vm_compute; reflexivity|].
  split; [vm_compute; reflexivity|]. reflexivity.
Qed.

(** Histogram.add: class counts after any history, regression piles after one batch. *)
From Coq Require Import List Arith Bool ZArith QArith Qcanon Lia Permutation Sorted.
From Verif Require Import Base Num Rng Histogram Spec NumFacts ListFacts HistFacts.
Import ListNotations.
Local Open Scope nat_scope.

(** ** Specification vocabulary versus the model's *)
Lemma rat_Nq n : rat n = Nq n. Proof. reflexivity. Qed.
Lemma total_qsum l : total l = qsum l.
Proof. induction l; cbn; congruence. Qed.
Lemma mean_qmean l : mean l = qmean l.
Proof. unfold mean, qmean. rewrite total_qsum. reflexivity. Qed.
Lemma variance_qvar l : variance l = qvar l.
Proof. unfold variance, qvar. rewrite total_qsum, mean_qmean. reflexivity. Qed.
Lemma is_left_qle f v r : is_left f v r = qle (value_of f r) v.
Proof.
  unfold is_left. destruct (Qclt_le_dec v (value_of f r)) as [L|L].
  - symmetry. now apply qle_false.
  - symmetry. now apply qle_spec.
Qed.
Lemma occurrences_app c l1 l2 : occurrences c (l1 ++ l2) = occurrences c l1 + occurrences c l2.
Proof. unfold occurrences. apply count_occ_app. Qed.
Lemma occurrences_cons c y l : occurrences c (y :: l) = (if qeq y c then 1 else 0) + occurrences c l.
Proof.
  unfold occurrences. cbn. destruct (Qc_eq_dec y c) as [->|N].
  - now rewrite qeq_refl.
  - apply qeq_false in N. now rewrite N.
Qed.
Lemma occurrences_one c y : occurrences c [y] = if qeq y c then 1 else 0.
Proof. rewrite occurrences_cons. cbn. now rewrite Nat.add_0_r. Qed.
Lemma occurrences_filter c l : occurrences c l = length (filter (fun y => qeq y c) l).
Proof.
  induction l as [|y l IH]; auto. rewrite occurrences_cons. cbn. rewrite IH.
  destruct (qeq y c); cbn; lia.
Qed.
Lemma occurrences_perm c l1 l2 : Permutation l1 l2 -> occurrences c l1 = occurrences c l2.
Proof. unfold occurrences. intros P. apply Permutation_count_occ. exact P. Qed.

Lemma left_part_app f v T1 T2 : left_part f v (T1 ++ T2) = left_part f v T1 ++ left_part f v T2.
Proof. apply filter_app. Qed.
Lemma right_part_app f v T1 T2 : right_part f v (T1 ++ T2) = right_part f v T1 ++ right_part f v T2.
Proof. apply filter_app. Qed.
Lemma labels_of_app T1 T2 : labels_of (T1 ++ T2) = labels_of T1 ++ labels_of T2.
Proof. apply map_app. Qed.

(** ** Class counts *)
Definition class_counts (classes ls : list Qc) : list nat := map (fun c => occurrences c ls) classes.

Lemma qindex_spec c l i : qindex c l = Some i -> nth_error l i = Some c.
Proof.
  revert i. induction l as [|a l IH]; intros i H; cbn in H; [discriminate|].
  destruct (qeq c a) eqn:E.
  - injection H as <-. apply qeq_spec in E. now subst.
  - destruct (qindex c l); [|discriminate]. injection H as <-. cbn. auto.
Qed.
Lemma qindex_none c l : qindex c l = None <-> ~ In c l.
Proof.
  induction l as [|a l IH]; cbn; [split; auto|].
  destruct (qeq c a) eqn:E.
  - apply qeq_spec in E. subst. split; [discriminate|]. intros H. destruct H. now left.
  - apply qeq_false in E. destruct (qindex c l) eqn:Q; cbn.
    + split; [discriminate|]. intros H. exfalso. destruct IH as [_ IH].
      assert (~ In c l) by tauto. apply IH in H0. discriminate.
    + split; auto. intros _ [->|I]; [auto|]. apply IH in I; auto.
Qed.
Lemma qindex_in c l : In c l -> exists i, qindex c l = Some i.
Proof. intros I. destruct (qindex c l) eqn:E; eauto. apply qindex_none in E. contradiction. Qed.

Lemma bump_counts classes ls c y :
  NoDup classes -> qindex c classes = Some y ->
  bump y (class_counts classes ls) = class_counts classes (ls ++ [c]).
Proof.
  intros ND Q. apply qindex_spec in Q. apply list_ext. intros i.
  unfold bump, class_counts. rewrite mapi_nth, !nth_error_map.
  destruct (nth_error classes i) as [d|] eqn:E; cbn; auto. f_equal.
  rewrite occurrences_app, occurrences_one.
  destruct (i =? y) eqn:I.
  - apply Nat.eqb_eq in I. subst. rewrite Q in E. injection E as <-. rewrite qeq_refl. lia.
  - apply Nat.eqb_neq in I. destruct (qeq c d) eqn:QQ; [|lia]. apply qeq_spec in QQ. subst d.
    exfalso. apply I. rewrite NoDup_nth_error in ND. apply ND; [|congruence].
    apply nth_error_Some. congruence.
Qed.

Definition lcounts (f : nat) (classes edges : list Qc) (T : table) : list (list nat) :=
  map (fun e => class_counts classes (labels_of (left_part f e T))) edges.
Definition rcounts (f : nat) (classes edges : list Qc) (T : table) : list (list nat) :=
  map (fun e => class_counts classes (labels_of (right_part f e T))) edges.

Definition class_inv (h : hist) (edges : list Qc) (T : table) : Prop :=
  h_left h = lcounts (h_feat h) (h_classes h) edges T /\
  h_right h = rcounts (h_feat h) (h_classes h) edges T.

Lemma insert_left_counts bin f classes edges T r y :
  (forall v b e, nth_error edges b = Some e -> (bin v <=? b) = qle v e) ->
  NoDup classes -> qindex (snd r) classes = Some y ->
  insert_left (bin (value_of f r)) y (lcounts f classes edges T) = lcounts f classes edges (T ++ [r]).
Proof.
  intros A ND Q. apply list_ext. intros b. unfold insert_left, lcounts.
  rewrite mapi_nth, !nth_error_map. destruct (nth_error edges b) as [e|] eqn:E; cbn [option_map]; auto.
  f_equal. rewrite (A _ _ _ E). rewrite left_part_app, labels_of_app. cbn [left_part filter].
  rewrite is_left_qle. destruct (qle (value_of f r) e).
  - now apply bump_counts.
  - cbn. now rewrite app_nil_r.
Qed.
Lemma insert_right_counts bin f classes edges T r y :
  (forall v b e, nth_error edges b = Some e -> (bin v <=? b) = qle v e) ->
  NoDup classes -> qindex (snd r) classes = Some y ->
  insert_right (bin (value_of f r)) y (rcounts f classes edges T) = rcounts f classes edges (T ++ [r]).
Proof.
  intros A ND Q. apply list_ext. intros b. unfold insert_right, rcounts.
  rewrite mapi_nth, !nth_error_map. destruct (nth_error edges b) as [e|] eqn:E; cbn [option_map]; auto.
  f_equal. rewrite Nat.ltb_antisym, (A _ _ _ E). rewrite right_part_app, labels_of_app. cbn [right_part filter].
  rewrite is_left_qle. destruct (qle (value_of f r) e); cbn.
  - now rewrite app_nil_r.
  - now apply bump_counts.
Qed.

Lemma add_one_fold bin f classes edges :
  (forall v b e, nth_error edges b = Some e -> (bin v <=? b) = qle v e) -> NoDup classes ->
  forall T2 T1 newY,
  mapM (fun y => opt_res (qindex y classes) ValueError) (map snd T2) = Ok newY ->
  fold_left add_one (combine (map bin (map (value_of f) T2)) newY)
            (lcounts f classes edges T1, rcounts f classes edges T1)
  = (lcounts f classes edges (T1 ++ T2), rcounts f classes edges (T1 ++ T2)).
Proof.
  intros A ND. induction T2 as [|r T2 IH]; intros T1 newY H; cbn in H.
  - injection H as <-. cbn. now rewrite app_nil_r.
  - inv_ok H. subst. apply opt_res_ok in E. cbn [map combine fold_left]. unfold add_one at 2. cbn [fst snd].
    rewrite (insert_left_counts bin), (insert_right_counts bin) by auto.
    rewrite (IH (T1 ++ [r]) _ E0). now rewrite <- app_assoc.
Qed.

Lemma col_ok X f vals : col X f = Ok vals -> vals = map (fun r => nth f r 0%Qc) X.
Proof.
  unfold col. intros H. eapply mapM_ok_map; [|exact H]. cbn. intros r b _ E.
  apply nth_res_ok in E. symmetry. now apply nth_error_nth.
Qed.
Lemma col_total X f W : rectangular W X -> f < W -> exists vals, col X f = Ok vals.
Proof.
  intros R L. apply mapM_total. intros r I. apply nth_res_lt. rewrite (R r I). exact L.
Qed.
Lemma col_column X Y f vals : col X f = Ok vals -> length X = length Y ->
  vals = column f (combine X Y).
Proof.
  intros H L. apply col_ok in H. subst. unfold column.
  rewrite <- (map_fst_combine X Y L) at 1. rewrite map_map. reflexivity.
Qed.

Lemma hist_add_same h X Y h' : hist_add h X Y = Ok h' ->
  h_class h' = h_class h /\ h_feat h' = h_feat h /\ h_classes h' = h_classes h /\
  h_nb h' = h_nb h /\ h_min h' = h_min h /\ h_max h' = h_max h /\ h_type h' = h_type h /\
  h_edges h' = h_edges h.
Proof.
  unfold hist_add. intros H. inv_ok H. destruct (h_class h) eqn:C; inv_ok H; subst h'; cbn; auto 10.
Qed.

Lemma agrees_same h h' edges : agrees h edges ->
  h_nb h' = h_nb h -> h_min h' = h_min h -> h_max h' = h_max h -> h_type h' = h_type h ->
  agrees h' edges.
Proof. intros A E1 E2 E3 E4. unfold agrees. rewrite E1, E2, E3, E4. exact A. Qed.

Lemma hist_add_class h X Y h' edges T :
  hist_add h X Y = Ok h' -> h_class h = true -> h_edges h = Some edges -> agrees h edges ->
  NoDup (h_classes h) -> class_inv h edges T ->
  length X = length Y /\ class_inv h' edges (T ++ combine X Y).
Proof.
  intros H C E A ND [IL IR]. unfold hist_add in H. rewrite C in H. inv_ok H.
  rewrite E in *. apply opt_res_ok in E1. injection E1 as <-.
  apply guard_ok in E3. apply Nat.eqb_eq in E3. split; auto.
  subst h'. unfold class_inv. cbn.
  rewrite IL, IR. rewrite (col_column _ _ _ _ E0 E3).
  rewrite <- (map_snd_combine X Y E3) in E5 at 1.
  unfold column. erewrite add_one_fold; [|exact A|exact ND|exact E5]. auto.
Qed.

Lemma class_inv_fresh h edges : fresh h -> h_class h = true -> h_edges h = Some edges ->
  class_inv h edges [].
Proof.
  intros [_ F] C E. rewrite E, C in F. destruct F as [L [FL FR]]. unfold class_inv.
  rewrite FL, FR, <- L. clear. unfold lcounts, rcounts, class_counts. cbn.
  assert (Z : repeat 0 (length (h_classes h)) = map (fun _ => 0) (h_classes h)).
  { induction (h_classes h); cbn; congruence. }
  rewrite Z. split; induction edges; cbn; congruence.
Qed.

(** ** Piles *)
Definition pile_of (l : list Qc) : pile :=
  {| p_n := length l; p_mean := mean l; p_var := variance l |}.

Lemma pile_of_nil : pile_of [] = pile0.
Proof. reflexivity. Qed.

Lemma update_bins_fresh l : update_bins pile0 l = pile_of l.
Proof.
  destruct l as [|a l]; auto. unfold update_bins, pile_of.
  set (x := a :: l). cbn [p_n p_mean p_var pile0 Nat.add].
  f_equal.
  - change (mean x) with (qmean x). assert (Nq (length x) <> 0)%Qc by (apply Nq_neq0; cbn; lia).
    rewrite Nq_0. field. auto.
Qed.

Lemma mean_app l1 l2 : l2 <> [] ->
  (mean (l1 ++ l2) = (rat (length l1) * mean l1 + rat (length l2) * mean l2) / rat (length l1 + length l2))%Qc.
Proof.
  intros N. assert (L : 0 < length l2) by (destruct l2; [contradiction|cbn; lia]).
  change mean with qmean. change rat with Nq. unfold qmean. rewrite qsum_app, app_length.
  assert (N2 : Nq (length l2) <> 0%Qc) by (apply Nq_neq0; lia).
  assert (N3 : Nq (length l1 + length l2) <> 0%Qc) by (apply Nq_neq0; lia).
  destruct l1 as [|a l1].
  - cbn [length qsum Nat.add]. rewrite Nq_0. unfold Qcdiv. rewrite !Qcmult_0_l, !Qcplus_0_l.
    field. auto.
  - assert (Nq (length (a :: l1)) <> 0%Qc) by (apply Nq_neq0; cbn; lia). field. auto.
Qed.

Lemma update_bins_mean p l1 l2 :
  p_n p = length l1 -> p_mean p = mean l1 ->
  p_n (update_bins p l2) = length (l1 ++ l2) /\ p_mean (update_bins p l2) = mean (l1 ++ l2).
Proof.
  intros H1 H2. destruct l2 as [|a l2]; [rewrite app_nil_r; auto|].
  unfold update_bins. set (x := a :: l2). cbn [p_n p_mean]. rewrite H1, H2, app_length. split; auto.
  rewrite mean_app by (subst x; discriminate). reflexivity.
Qed.

(** Sums of squares. *)
Lemma sum_sq_dev l m : qsum (map (fun y => (y - m) * (y - m))%Qc l)
  = (qsum (map (fun y => y * y)%Qc l) - (1 + 1) * m * qsum l + Nq (length l) * (m * m))%Qc.
Proof.
  induction l as [|a l IH]; cbn [map qsum length]; [rewrite Nq_0; ring|].
  rewrite IH, Nq_S. ring.
Qed.
Lemma qvar_alt l : l <> [] ->
  (qvar l = qsum (map (fun y => y * y)%Qc l) / Nq (length l) - qmean l * qmean l)%Qc.
Proof.
  intros N. assert (Nq (length l) <> 0%Qc). { apply Nq_neq0. destruct l; [contradiction|cbn; lia]. }
  unfold qvar. cbv zeta. rewrite sum_sq_dev. unfold qmean. field. auto.
Qed.
Lemma qvar_nonneg l : (0 <= qvar l)%Qc.
Proof.
  unfold qvar. destruct l as [|a l]; [cbn; apply qle_refl|].
  apply qdiv_le_0; [|apply Nq_pos; cbn; lia].
  apply qsum_nonneg. intros x I. apply in_map_iff in I. destruct I as [y [<- _]]. apply qsquare_nonneg.
Qed.

(** The combined-variance formula is right when neither variance is zero. *)
Lemma welford_correct l1 l2 : l1 <> [] -> l2 <> [] -> variance l1 <> 0%Qc -> variance l2 <> 0%Qc ->
  welford (length l1) (mean l1) (variance l1) (length l2) (mean l2) (variance l2) = variance (l1 ++ l2).
Proof.
  intros N1 N2 V1 V2. unfold welford.
  apply qeq_false in V1. apply qeq_false in V2. rewrite V1, V2.
  assert (P1 : Nq (length l1) <> 0%Qc). { apply Nq_neq0. destruct l1; [contradiction|cbn; lia]. }
  assert (P2 : Nq (length l2) <> 0%Qc). { apply Nq_neq0. destruct l2; [contradiction|cbn; lia]. }
  assert (P3 : (Nq (length l1) + Nq (length l2))%Qc <> 0%Qc).
  { rewrite <- Nq_plus. apply Nq_neq0. destruct l1; [contradiction|cbn; lia]. }
  change variance with qvar. change mean with qmean. rewrite !qvar_alt by (destruct l1; [contradiction|discriminate] || auto).
  rewrite map_app, qsum_app, app_length. unfold qmean. rewrite qsum_app, app_length, Nq_plus.
  field. auto.
Qed.

Lemma select_rows bin test f T :
  select test (map bin (map (value_of f) T)) (map snd T)
  = labels_of (filter (fun r => test (bin (value_of f r))) T).
Proof.
  unfold select, labels_of. induction T as [|r T IH]; cbn; auto.
  destruct (test (bin (value_of f r))); cbn; congruence.
Qed.

Lemma nth_error_ext_map2 {A B C} (g : nat -> B -> C) (h : A -> C) (l1 : list B) (l2 : list A) :
  length l1 = length l2 ->
  (forall i a b, nth_error l2 i = Some a -> nth_error l1 i = Some b -> g i b = h a) ->
  mapi g l1 = map h l2.
Proof.
  intros L H. apply list_ext. intros i. rewrite mapi_nth, nth_error_map.
  destruct (nth_error l1 i) as [b|] eqn:E1, (nth_error l2 i) as [a|] eqn:E2; cbn; auto.
  - f_equal. eauto.
  - apply nth_error_None in E2. assert (i < length l1) by (apply nth_error_Some; congruence). lia.
  - apply nth_error_None in E1. assert (i < length l2) by (apply nth_error_Some; congruence). lia.
Qed.

Definition lpiles f edges T := map (fun e => pile_of (labels_of (left_part f e T))) edges.
Definition rpiles f edges T := map (fun e => pile_of (labels_of (right_part f e T))) edges.
Definition regr_inv (h : hist) (edges : list Qc) (T : table) : Prop :=
  h_lpile h = lpiles (h_feat h) edges T /\ h_rpile h = rpiles (h_feat h) edges T /\
  h_cpile h = pile_of (labels_of T).

(** General form: how each pile changes. *)
Lemma hist_add_regr h X Y h' edges :
  hist_add h X Y = Ok h' -> h_class h = false -> h_edges h = Some edges -> agrees h edges ->
  let T := combine X Y in
  length X = length Y /\
  length (h_lpile h) = length edges /\ length (h_rpile h) = length edges /\
  (forall b e, nth_error edges b = Some e ->
     nth_error (h_lpile h') b = option_map (fun p => update_bins p (labels_of (left_part (h_feat h) e T))) (nth_error (h_lpile h) b) /\
     nth_error (h_rpile h') b = option_map (fun p => update_bins p (labels_of (right_part (h_feat h) e T))) (nth_error (h_rpile h) b)) /\
  length (h_lpile h') = length edges /\ length (h_rpile h') = length edges /\
  h_cpile h' = update_bins (h_cpile h) (labels_of T).
Proof.
  intros H C E A T. unfold hist_add in H. rewrite C in H. inv_ok H.
  rewrite E in *. apply opt_res_ok in E1. injection E1 as <-.
  apply guard_ok in E2. apply guard_ok in E3. apply Nat.eqb_eq in E3. split; auto.
  rewrite !andb_true_iff, !Nat.eqb_eq in E2. destruct E2 as [[L1 L2] L3].
  split; [lia|]. split; [lia|].
  assert (V := col_column _ _ _ _ E0 E3). fold T in V.
  assert (HY : Y = map snd T) by (symmetry; now apply map_snd_combine).
  clearbody T.
  subst h'. unfold set_piles. cbn [h_lpile h_rpile h_cpile h_feat]. rewrite !mapi_length. repeat split; try lia.
  - rewrite mapi_nth, V. rewrite HY. unfold column. rewrite select_rows.
    destruct (nth_error (h_lpile h) b); cbn [option_map]; auto. do 3 f_equal. unfold left_part.
    apply filter_ext. intros rw. rewrite is_left_qle. now apply A.
  - rewrite mapi_nth, V. rewrite HY. unfold column. rewrite select_rows.
    destruct (nth_error (h_rpile h) b); cbn [option_map]; auto. do 3 f_equal. unfold right_part.
    apply filter_ext. intros rw. rewrite is_left_qle, Nat.ltb_antisym. f_equal. now apply A.
  - now rewrite HY.
Qed.

Lemma hist_add_regr_fresh h X Y h' edges :
  hist_add h X Y = Ok h' -> h_class h = false -> h_edges h = Some edges -> agrees h edges ->
  fresh h -> regr_inv h' edges (combine X Y).
Proof.
  intros H C E A [FC F]. rewrite E, C in F. destruct F as [L [FL FR]].
  destruct (hist_add_same _ _ _ _ H) as [_ [Hf _]].
  destruct (hist_add_regr _ _ _ _ _ H C E A) as [HL [_ [_ [HP [L1 [L2 HC]]]]]].
  assert (R : forall b e, nth_error edges b = Some e -> nth_error (repeat pile0 (h_nb h)) b = Some pile0).
  { intros b e N. assert (b < length edges) by (apply nth_error_Some; congruence).
    rewrite (nth_error_nth' _ pile0) by (rewrite repeat_length; lia). f_equal. apply nth_repeat. }
  unfold regr_inv. rewrite Hf. repeat split.
  - apply list_ext. intros b. unfold lpiles. rewrite nth_error_map.
    destruct (nth_error edges b) as [e|] eqn:N; cbn.
    + destruct (HP b e N) as [-> _]. rewrite FL, (R _ _ N). cbn. now rewrite update_bins_fresh.
    + apply nth_error_None. rewrite L1. now apply nth_error_None.
  - apply list_ext. intros b. unfold rpiles. rewrite nth_error_map.
    destruct (nth_error edges b) as [e|] eqn:N; cbn.
    + destruct (HP b e N) as [_ ->]. rewrite FR, (R _ _ N). cbn. now rewrite update_bins_fresh.
    + apply nth_error_None. rewrite L2. now apply nth_error_None.
  - rewrite HC, FC. apply update_bins_fresh.
Qed.

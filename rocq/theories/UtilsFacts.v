(** Facts about utils/utils.py, the entropy criterion and the helpers of the solvers. *)
From Coq Require Import List Arith Bool ZArith QArith Qcanon Lia Permutation Sorted.
From Verif Require Import Base Num Rng Histogram Utils Criteria Solvers Tree Forest.
From Verif Require Import Samples Spec TreeSpec ListFacts NumFacts HistFacts CritFacts ReductionFacts CountFacts ForestFacts MakeHist TreeWitness.
Import ListNotations.
Local Open Scope nat_scope.

(** ** Entropy with its variance *)
Lemma entropy_answers M counts pop n :
  (exists r, get_entropy M counts pop n = Ok r) <-> length counts <= 2.
Proof.
  unfold get_entropy, class_probs. destruct counts as [|a [|b [|c l]]]; cbn [map length]; split; intros H; try lia; try (eexists; reflexivity).
  destruct H as [r H]. discriminate H.
Qed.
Lemma entropy_many M counts pop n : 3 <= length counts -> get_entropy M counts pop n = Err ValueError.
Proof. unfold get_entropy, class_probs. destruct counts as [|a [|b [|c l]]]; cbn [map length]; intros H; try lia. reflexivity. Qed.

(** ** data_to_discrete *)
Lemma collect_some vals : forall acc s, NoDup acc -> collect_distinct acc vals = Some s ->
  NoDup s /\ (forall x, In x s <-> In x acc \/ In x vals) /\ (length acc <= 10 -> length s <= 10).
Proof.
  induction vals as [|v vals IH]; intros acc s ND H; cbn [collect_distinct] in H.
  - injection H as <-. split; [assumption|]. split; [intros x; cbn; tauto|auto].
  - destruct (10 <? _) eqn:G; [discriminate|]. apply Nat.ltb_ge in G.
    assert (ND' : NoDup (if qmem v acc then acc else acc ++ [v]) /\ (forall x, In x (if qmem v acc then acc else acc ++ [v]) <-> In x acc \/ x = v)).
    { destruct (qmem v acc) eqn:Q.
      - split; auto. intros x. split; auto. intros [I| ->]; auto. unfold qmem in Q. apply existsb_exists in Q. destruct Q as [y [I E]]. apply qeq_spec in E. now subst.
      - assert (NI : ~ In v acc). { intros I. assert (T : qmem v acc = true) by (unfold qmem; apply existsb_exists; exists v; split; auto; apply qeq_refl). congruence. }
        split.
        + apply Permutation_NoDup with (v :: acc); [apply Permutation_cons_append|]. now constructor.
        + intros x. rewrite in_app_iff. cbn. intuition. }
    destruct ND' as [ND' IN]. destruct (IH _ _ ND' H) as [A [B C]]. split; auto. split.
    + intros x. rewrite B, IN. cbn. intuition.
    + intros _. now apply C.
Qed.
Lemma collect_none vals : forall acc, NoDup acc -> length acc <= 10 -> collect_distinct acc vals = None ->
  exists s, NoDup s /\ 10 < length s /\ (forall x, In x s -> In x acc \/ In x vals).
Proof.
  induction vals as [|v vals IH]; intros acc ND L H; cbn [collect_distinct] in H; [discriminate|].
  assert (ND' : NoDup (if qmem v acc then acc else acc ++ [v]) /\ (forall x, In x (if qmem v acc then acc else acc ++ [v]) -> In x acc \/ x = v)).
  { destruct (qmem v acc) eqn:Q; [split; auto|].
    assert (NI : ~ In v acc). { intros I. assert (T : qmem v acc = true) by (unfold qmem; apply existsb_exists; exists v; split; auto; apply qeq_refl). congruence. }
    split.
    - apply Permutation_NoDup with (v :: acc); [apply Permutation_cons_append|]. now constructor.
    - intros x. rewrite in_app_iff. cbn. intuition. }
  destruct ND' as [ND' IN]. destruct (10 <? _) eqn:G.
  - apply Nat.ltb_lt in G. eexists. split; [exact ND'|]. split; [exact G|]. intros x I. apply IN in I. cbn. intuition.
  - apply Nat.ltb_ge in G. destruct (IH _ ND' G H) as [s [A [B C]]]. exists s. split; auto. split; auto.
    intros x I. apply C in I. destruct I as [I|I]; [apply IN in I|]; cbn; intuition.
Qed.

Lemma col_values data f c : col data f = Ok c -> c = feature_values f data.
Proof.
  unfold col, feature_values. intros H. eapply mapM_ok_map in H; [exact H|]. intros r b _ E. apply nth_res_ok in E.
  symmetry. now apply nth_error_nth.
Qed.
Lemma col_total W data f : rectangular W data -> f < W -> col data f = Ok (feature_values f data).
Proof.
  intros R L. destruct (mapM_total (fun r => nth_res r f) data) as [c E].
  - intros r I. apply nth_res_lt. now rewrite (R r I).
  - unfold col. rewrite E. f_equal. apply (col_values _ _ _ E).
Qed.

Lemma assoc_concat f (g : nat -> list (nat * dval)) l : (forall k p, In p (g k) -> fst p = k) -> NoDup l ->
  assoc f (concat (map g l)) = if in_dec Nat.eq_dec f l then assoc f (g f) else None.
Proof.
  intros K. induction l as [|a l IH]; intros ND; [reflexivity|]. cbn [map concat]. inversion ND as [|? ? NI ND']; subst.
  assert (APP : forall l1 l2 : list (nat * dval), assoc f (l1 ++ l2) = match assoc f l1 with Some v => Some v | None => assoc f l2 end).
  { induction l1 as [|[k v] l1 J]; intros l2; cbn; [reflexivity|]. destruct (f =? k); auto. }
  assert (NO : forall l1 : list (nat * dval), (forall p, In p l1 -> fst p <> f) -> assoc f l1 = None).
  { induction l1 as [|[k v] l1 J]; intros H; cbn; [reflexivity|]. destruct (Nat.eqb_spec f k) as [->|]; [destruct (H (k, v)); cbn; auto|].
    apply J. intros p I. apply H. now right. }
  rewrite APP, IH by auto. destruct (Nat.eq_dec a f) as [->|NE].
  - destruct (in_dec Nat.eq_dec f (f :: l)) as [_|N]; [|destruct N; now left]. destruct (assoc f (g f)); auto.
    destruct (in_dec Nat.eq_dec f l); [contradiction|auto].
  - rewrite (NO (g a)); [|intros p I E; apply K in I; congruence].
    destruct (in_dec Nat.eq_dec f (a :: l)) as [[E|I]|N]; [congruence| |].
    + destruct (in_dec Nat.eq_dec f l); [auto|contradiction].
    + destruct (in_dec Nat.eq_dec f l); [destruct N; now right|auto].
Qed.

Definition disc_entry (data : list (list Qc)) (f : nat) : list (nat * dval) :=
  match collect_distinct [] (feature_values f data) with Some s => [(f, DSet s)] | None => [] end.

Lemma data_to_discrete_eq W data n : rectangular W data -> data <> [] ->
  data_to_discrete data n = Ok {| dd_default := true; dd_items := concat (map (disc_entry data) (seq 0 W)) |}.
Proof.
  intros R NE. unfold data_to_discrete. destruct data as [|r0 data]; [contradiction|].
  assert (L0 : length r0 = W) by (apply R; now left).
  assert (E : mapM (fun f => do c <- col (r0 :: data) f; Ok match collect_distinct [] c with Some s => [(f, DSet s)] | None => [] end) (seq 0 W)
            = Ok (map (disc_entry (r0 :: data)) (seq 0 W))).
  { apply mapM_pure. intros f I. apply in_seq in I. rewrite (col_total W) by (auto; lia). reflexivity. }
  change (nth_res (r0 :: data) 0) with (Ok r0). cbn [rbind]. rewrite L0, E. reflexivity.
Qed.

Lemma discrete_spec W data n d : rectangular W data -> data <> [] -> data_to_discrete data n = Ok d ->
  forall f, match assoc f (dd_items d) with
            | Some v => f < W /\ length (distinct (feature_values f data)) <= 10 /\
                        exists s, v = DSet s /\ NoDup s /\ forall x, In x s <-> In x (feature_values f data)
            | None => f < W -> 10 < length (distinct (feature_values f data))
            end.
Proof.
  intros R NE H f. rewrite (data_to_discrete_eq W) in H by auto. injection H as <-. cbn [dd_items].
  rewrite assoc_concat; [|intros k p; unfold disc_entry; destruct (collect_distinct _ _); cbn; [intros [<-|[]]; reflexivity|contradiction]|apply seq_NoDup].
  destruct (in_dec Nat.eq_dec f (seq 0 W)) as [I|N].
  - apply in_seq in I. unfold disc_entry. destruct (collect_distinct [] (feature_values f data)) as [s|] eqn:C; cbn [assoc].
    + rewrite Nat.eqb_refl. destruct (collect_some _ _ _ (NoDup_nil _) C) as [A [B L]].
      assert (IN : forall x, In x s <-> In x (feature_values f data)) by (intros x; rewrite B; cbn; tauto).
      split; [lia|]. split.
      * cbn in L. transitivity (length s); [|apply L; lia]. apply NoDup_incl_length; [apply NoDup_nodup|]. intros x J. apply nodup_In in J. now apply IN.
      * exists s. auto.
    + intros _. destruct (collect_none _ _ (NoDup_nil _) (Nat.le_0_l _) C) as [s [A [B L]]].
      apply Nat.lt_le_trans with (length s); auto. apply NoDup_incl_length; auto. intros x J. apply nodup_In. apply L in J. destruct J as [[]|J]. exact J.
  - intros L. destruct N. apply in_seq. lia.
Qed.

(** ** Discrete bins *)
Lemma discrete_set s nb : exists e, discrete_bin (Some (DSet s)) nb = Err e.
Proof. cbn. destruct (nb =? 0); eauto. Qed.
Lemma discrete_list l : l <> [] -> discrete_bin (Some (DList l)) (length l) = Ok l.
Proof.
  intros NE. cbn [discrete_bin dval_list]. destruct (Nat.eqb_spec (length l) 0) as [Z|Z]; [destruct l; [contradiction|discriminate]|].
  rewrite Nat.div_same by auto. rewrite (mapM_pure _ (fun i => nth i l 0%Qc)).
  - now rewrite map_nth_seq.
  - intros i I. apply in_seq in I. rewrite Nat.mul_1_l. apply nth_res_ok. apply nth_error_nth'. lia.
Qed.

Lemma make_discrete_fails W data n d ic labels mm B np :
  rectangular W data -> data <> [] -> 0 < W -> data_to_discrete data n = Ok d ->
  exists e, make_histograms ic data labels mm (Some d) DISCRETE B np = Err e.
Proof.
  intros R NE WP D. pose proof (discrete_spec W data n d R NE D 0) as SP.
  assert (DF : dd_default d = true). { rewrite (data_to_discrete_eq W) in D by auto. injection D as <-. reflexivity. }
  assert (L0 : exists r0, nth_res data 0 = Ok r0 /\ length r0 = W). { destruct data as [|r0 data]; [contradiction|]. exists r0. split; [reflexivity|]. apply R. now left. }
  destruct L0 as [r0 [L0 L1]]. unfold make_histograms. rewrite L0. cbn [rbind]. rewrite L1. destruct W as [|W]; [lia|]. cbn [seq foldM].
  unfold mh_step at 1. rewrite (col_total (S W)) by (auto; lia). cbn [rbind]. unfold dd_get. destruct (assoc 0 (dd_items d)) as [v|].
  - destruct SP as [_ [_ [s [-> [ND IN]]]]]. cbn [rbind dval_list]. destruct (Nat.eqb_spec (length s) 0) as [Z|Z].
    + exfalso. destruct s; [|discriminate]. destruct data as [|r data]; [contradiction|]. cbn in IN. destruct (IN (nth 0 r 0%Qc)) as [_ I]. destruct I. now left.
    + cbn [rbind new_hist bintype_eqb]. destruct (discrete_set s (length s)) as [e E]. unfold new_hist. rewrite E. cbn. eauto.
  - rewrite DF. cbn. eauto.
Qed.

(** ** remap_discrete_features *)
Lemma assoc_seq {A} (vals : list A) : forall k i, assoc (k + i) (combine (seq k (length vals)) vals) = nth_error vals i.
Proof.
  induction vals as [|v vals IH]; intros k i; cbn [length seq combine assoc]; [now destruct i|].
  destruct i as [|i]; [rewrite Nat.add_0_r, Nat.eqb_refl; reflexivity|].
  destruct (Nat.eqb_spec (k + S i) k); [lia|]. change (nth_error (v :: vals) (S i)) with (nth_error vals i). rewrite <- (IH (S k) i). f_equal. lia.
Qed.
Lemma remap_spec feats d d' : remap_discrete_features feats d = Ok d' -> dd_default d = true ->
  forall i f, nth_error feats i = Some f -> dd_get d' i = dd_get d f.
Proof.
  unfold remap_discrete_features. intros H DF i f E. destruct (dd_items d) as [|p items] eqn:EI.
  - injection H as <-. unfold dd_get. rewrite EI, DF. reflexivity.
  - apply rbind_ok in H. destruct H as [vals [EV H]]. injection H as <-. destruct (mapM_nth' _ _ _ _ _ EV E) as [v [NV DV]].
    rewrite DV. unfold dd_get. cbn [dd_items dd_default]. assert (L : length feats = length vals) by (symmetry; eapply mapM_length; eauto). rewrite L.
    pose proof (assoc_seq vals 0 i) as A. cbn [Nat.add] in A. rewrite A, NV. reflexivity.
Qed.
Lemma remap_total feats d : dd_default d = true -> exists d', remap_discrete_features feats d = Ok d'.
Proof.
  intros DF. unfold remap_discrete_features. destruct (dd_items d); [eauto|].
  destruct (mapM_total (dd_get d) feats) as [v E]; [|rewrite E; cbn; eauto].
  intros f _. unfold dd_get. rewrite DF. destruct (assoc f (dd_items d)); eauto.
Qed.

(** ** choose_features *)
Lemma choice_norepl_ok pool k t : k <= length pool -> exists r, choice_norepl pool k t = Ok r.
Proof. intros L. unfold choice_norepl. destruct (Nat.ltb_spec (length pool) k); [lia|eauto]. Qed.
Lemma choice_norepl_big pool k t : length pool < k -> choice_norepl pool k t = Err ValueError.
Proof. intros L. unfold choice_norepl. destruct (Nat.ltb_spec (length pool) k); [auto|lia]. Qed.

Lemma Nq_rat k : Nq k = rat k. Proof. reflexivity. Qed.
Lemma Zq_nat z : (0 <= z)%Z -> Zq z = Nq (Z.to_nat z).
Proof. intros H. unfold Nq. f_equal. lia. Qed.
Lemma qceil_rounds_up x : (0 <= qceil x)%Z -> rounds_up x (Z.to_nat (qceil x)).
Proof.
  intros H. split.
  - change rat with Nq. rewrite <- Zq_nat by auto. apply qceil_le. lia.
  - intros j L. assert (qceil x <= Z.of_nat j)%Z; [|lia]. apply qceil_le. exact L.
Qed.
Lemma rounds_up_unique x j k : rounds_up x j -> rounds_up x k -> j = k.
Proof. intros [A B] [C D]. apply Nat.le_antisymm; auto. Qed.

Lemma choose_features_spec feats fs gen l gen' : NoDup feats -> choose_features feats fs gen = Ok (l, gen') ->
  NoDup l /\ incl l feats /\
  match fs with
  | FSNone => l = feats
  | FSSqrt => length feats <= length l * length l /\ forall j, length feats <= j * j -> length l <= j
  | FSInt k => Z.of_nat (length l) = k
  | FSFloat r => rounds_up (r * rat (length feats))%Qc (length l)
  | FSOther => False
  end.
Proof.
  intros ND H. unfold choose_features in H. destruct fs as [| |k|r|].
  - injection H as <- <-. split; auto. split; [apply incl_refl|reflexivity].
  - apply choice_norepl_in in H. destruct H as [L [I N]]. split; auto. split; [exact I|]. rewrite L. split.
    + destruct (length feats) as [|n]; [cbn; lia|]. pose proof (Nat.sqrt_up_spec (S n) ltac:(lia)). lia.
    + intros j J. apply Nat.sqrt_up_le_square; auto; try lia. 
  - destruct (Z.ltb_spec k 0); [discriminate|]. apply choice_norepl_in in H. destruct H as [L [I N]]. split; auto. split; [exact I|]. rewrite L. lia.
  - destruct (Z.ltb_spec (qceil (r * Nq (length feats))%Qc) 0); [discriminate|]. apply choice_norepl_in in H. destruct H as [L [I N]]. split; auto. split; [exact I|].
    rewrite L. now apply qceil_rounds_up.
  - discriminate.
Qed.

Lemma choose_features_ok feats fs gen :
  (exists r, choose_features feats fs gen = Ok r) <->
  match fs with
  | FSNone | FSSqrt => True
  | FSInt k => (0 <= k <= Z.of_nat (length feats))%Z
  | FSFloat r => (- (1) < r * rat (length feats))%Qc /\ (r * rat (length feats) <= rat (length feats))%Qc
  | FSOther => False
  end.
Proof.
  unfold choose_features. change rat with Nq. destruct fs as [| |k|r|].
  - split; eauto.
  - split; auto. intros _. apply choice_norepl_ok. destruct (length feats) as [|n]; [cbn; lia|]. apply Nat.sqrt_up_le_lin. lia.
  - destruct (Z.ltb_spec k 0); [split; [intros [? ?]; discriminate|lia]|]. split.
    + intros [x E]. split; auto. destruct (le_lt_dec (Z.to_nat k) (length feats)); [lia|]. rewrite choice_norepl_big in E by auto. discriminate.
    + intros K. apply choice_norepl_ok. lia.
  - set (x := (r * Nq (length feats))%Qc). assert (Z1 : (0 <= qceil x)%Z <-> (- (1) < x)%Qc).
    { pose proof (qceil_lt x (-1)) as K. assert (EQ : Zq (-1) = (- (1))%Qc) by reflexivity. rewrite EQ in K. rewrite <- K. lia. }
    assert (Z2 : (qceil x <= Z.of_nat (length feats))%Z <-> (x <= Nq (length feats))%Qc) by apply qceil_le.
    destruct (Z.ltb_spec (qceil x) 0).
    + split; [intros [? ?]; discriminate|]. intros [A _]. apply Z1 in A. lia.
    + split.
      * intros [y E]. split; [now apply Z1|]. apply Z2. destruct (le_lt_dec (Z.to_nat (qceil x)) (length feats)); [lia|]. rewrite choice_norepl_big in E by auto. discriminate.
      * intros [A B]. apply Z2 in B. apply choice_norepl_ok. lia.
  - split; [intros [? ?]; discriminate|contradiction].
Qed.

(** ** counts_of_labels *)
Lemma class_to_idx_good classes : NoDup classes -> good_classes (class_to_idx classes).
Proof.
  intros ND. unfold class_to_idx, good_classes. rewrite map_fst_combine, map_snd_combine by (now rewrite seq_length). split; auto. split; [apply seq_NoDup|].
  intros k i I. apply in_combine_r, in_seq in I. rewrite combine_length, seq_length, Nat.min_id. lia.
Qed.
Lemma counts_map classes labels cs : NoDup classes -> counts_of_labels (class_to_idx classes) labels = Ok cs ->
  cs = map (fun k => occurrences k labels) classes.
Proof.
  intros ND H. pose proof (class_to_idx_good _ ND) as G. apply counts_of_labels_spec in H; auto. destruct H as [L [_ H]].
  assert (LD : length (class_to_idx classes) = length classes) by (unfold class_to_idx; rewrite combine_length, seq_length; lia).
  apply list_ext. intros i. rewrite nth_error_map. destruct (nth_error classes i) as [k|] eqn:E; cbn.
  - apply H. unfold class_to_idx. apply nth_error_In with (n := i). rewrite combine_nth_error, E.
    assert (i < length classes) by (apply nth_error_Some; congruence).
    rewrite (nth_error_nth' _ 0) by (now rewrite seq_length). now rewrite seq_nth.
  - apply nth_error_None in E. apply nth_error_None. lia.
Qed.

Lemma counts_exact classes labels : NoDup classes ->
  (incl labels classes -> counts_of_labels (class_to_idx classes) labels = Ok (map (fun k => occurrences k labels) classes) /\
     list_sum (map (fun k => occurrences k labels) classes) = length labels) /\
  (~ incl labels classes -> counts_of_labels (class_to_idx classes) labels = Err KeyError).
Proof.
  intros ND. pose proof (class_to_idx_good _ ND) as G.
  assert (KS : map fst (class_to_idx classes) = classes) by (unfold class_to_idx; apply map_fst_combine; now rewrite seq_length).
  split.
  - intros I. destruct (counts_of_labels_total (class_to_idx classes) labels) as [cs E].
    + apply G.
    + rewrite KS. exact I.
    + pose proof (counts_map _ _ _ ND E) as ->. split; auto. apply (counts_total _ _ _ G E).
  - intros N. assert (X : exists y, In y labels /\ ~ In y classes).
    { clear - N. induction labels as [|y l IH]; [destruct N; intros x []|]. destruct (in_dec Qc_eq_dec y classes) as [I|NI].
      - destruct IH as [z [A B]]; [|exists z; split; auto; now right]. intros J. apply N. intros x [<-|Hx]; auto.
      - exists y. split; auto. now left. }
    destruct X as [y [A B]]. apply counts_of_labels_keyerror with y; [apply G|auto|]. now rewrite KS.
Qed.

(** ** get_next_targets *)
Lemma qeq_false x y : x <> y -> qeq x y = false.
Proof. intros H. destruct (qeq x y) eqn:E; auto. apply qeq_spec in E. contradiction. Qed.
Lemma sq_smooth_pos p : (0 < p * p + smoothing)%Qc.
Proof. assert (0 < smoothing)%Qc by reflexivity. qnra. Qed.
Lemma next_target_class t p : (t + smoothing <> 0)%Qc -> (p + smoothing <> 0)%Qc ->
  get_next_target CELoss true t p = Ok (Fin ((p * p + smoothing) / (p + smoothing))%Qc).
Proof.
  intros T Q. pose proof (sq_smooth_pos p) as S. assert (SN : (p * p + smoothing <> 0)%Qc) by (intros E; rewrite E in S; exact (Qclt_not_le _ _ S (Qcle_refl _))).
  cbn. rewrite (qeq_false _ _ Q), (qeq_false _ _ SN). cbn [xopp xdiv].
  assert (D : ((t + smoothing) / (p * p + smoothing) <> 0)%Qc).
  { intros E. apply T. transitivity ((t + smoothing) / (p * p + smoothing) * (p * p + smoothing))%Qc; [field; auto|rewrite E; ring]. }
  rewrite (qeq_false _ _ D). do 2 f_equal. field. auto.
Qed.

(** ** verify_reduction *)
Lemma verify_rows data f c (labels : list Qc) : length data = length labels -> col data f = Ok c ->
  combine c labels = map (fun r => (value_of f r, snd r)) (combine data labels).
Proof.
  intros L E. apply col_values in E. subst c. unfold feature_values. clear -L. revert labels L.
  induction data as [|r data IH]; intros [|y labels] L; cbn; try discriminate; auto. f_equal. apply IH. now injection L.
Qed.
Lemma verify_left f v T : map snd (filter (fun p => qle (fst p) v) (map (fun r => (value_of f r, snd r)) T)) = labels_of (left_part f v T).
Proof.
  unfold labels_of, left_part. induction T as [|r T IH]; cbn [map filter]; auto. cbn [fst]. unfold is_left at 1.
  destruct (Qclt_le_dec v (value_of f r)) as [H|H].
  - assert (E : qle (value_of f r) v = false) by (apply not_true_is_false; intros E; apply qle_spec in E; exact (Qclt_not_le _ _ H E)). rewrite E. exact IH.
  - apply qle_spec in H. rewrite H. cbn [map snd]. now f_equal.
Qed.
Lemma verify_right f v T : map snd (filter (fun p => qlt v (fst p)) (map (fun r => (value_of f r, snd r)) T)) = labels_of (right_part f v T).
Proof.
  unfold labels_of, right_part. induction T as [|r T IH]; cbn [map filter]; auto. cbn [fst]. unfold is_left at 1.
  destruct (Qclt_le_dec v (value_of f r)) as [H|H]; cbn [negb].
  - apply qlt_spec in H. rewrite H. cbn [map snd]. now f_equal.
  - assert (E : qlt v (value_of f r) = false) by (apply not_true_is_false; intros E; apply qlt_spec in E; exact (Qclt_not_le _ _ E H)). rewrite E. exact IH.
Qed.
Lemma dot_self_gini cl ls : NoDup cl -> incl ls cl -> (1 - dot_self (map (fun k => occurrences k ls) cl) (length ls))%Qc = gini ls.
Proof. intros ND I. rewrite (gini_classes cl) by auto. unfold dot_self. rewrite map_map. reflexivity. Qed.

Lemma verify_reduction_spec W data labels f v : rectangular W data -> f < W -> length data = length labels ->
  verify_reduction data labels f v =
  Ok (negb (length (left_part f v (combine data labels)) =? 0) && negb (length (right_part f v (combine data labels)) =? 0)).
Proof.
  intros R FW L. set (T := combine data labels). unfold verify_reduction.
  assert (ND := unique_nodup labels). assert (LT : labels_of T = labels) by (unfold labels_of, T; now apply map_snd_combine).
  assert (IT : forall l, incl l (labels_of T) -> incl l (unique labels)) by (intros l I x J; apply unique_in; rewrite <- LT; auto).
  destruct (counts_exact (unique labels) labels ND) as [C _]. destruct (C (fun x I => proj2 (unique_in labels x) I)) as [-> _]. cbn [rbind].
  rewrite (col_total W) by auto. cbn [rbind]. rewrite (verify_rows data f) by (auto; now apply (col_total W)). fold T.
  rewrite verify_left, verify_right. pose proof (IT _ (left_part_incl f v T)) as IL. pose proof (IT _ (right_part_incl f v T)) as IR.
  destruct (counts_exact (unique labels) (labels_of (left_part f v T)) ND) as [CL _]. destruct (CL IL) as [-> SL]. cbn [rbind].
  rewrite labels_length. destruct (Nat.eqb_spec (length (left_part f v T)) 0) as [Z|Z]; [reflexivity|].
  destruct (counts_exact (unique labels) (labels_of (right_part f v T)) ND) as [CR _]. destruct (CR IR) as [-> SR]. cbn [rbind].
  rewrite labels_length. destruct (Nat.eqb_spec (length (right_part f v T)) 0) as [Z'|Z']; [reflexivity|]. cbn [negb andb]. f_equal.
  change list_sum with sum_nat in SL, SR. rewrite SL, SR. rewrite (dot_self_gini (unique labels) (labels_of (left_part f v T))), (dot_self_gini (unique labels) (labels_of (right_part f v T))), (dot_self_gini (unique labels) labels) by (auto; intros x; apply unique_in).
  assert (NT : T <> []) by (intros E; rewrite E in Z; cbn in Z; lia).
  pose proof (reduction_gini_nonpos T f v NT) as NP. unfold reduction in NP. cbv zeta in NP. rewrite LT in NP.
  assert (LN : @length row T = length labels) by (rewrite <- LT; now rewrite labels_length). rewrite LN in NP. rewrite !labels_length.
  change rat with Nq in NP. apply qlt_spec.
  set (gl := gini (labels_of (left_part f v T))) in *. set (gr := gini (labels_of (right_part f v T))) in *. set (g := gini labels) in *.
  set (nl := Nq (length (left_part f v T))) in *. set (nr := Nq (length (right_part f v T))) in *. set (n := Nq (length labels)) in *.
  assert (EQ : ((gl * nl + gr * nr) / n = nl / n * gl + nr / n * gr)%Qc). { unfold Qcdiv. ring. }
  rewrite EQ. assert (TN : (tolerance < 0)%Qc) by reflexivity. qlra.
Qed.

(** ** filter_tied_arms *)
Lemma ninsert_in a l x : In x (ninsert a l) <-> x = a \/ In x l.
Proof.
  induction l as [|b l IH]; cbn [ninsert]; [cbn; intuition|]. destruct (Nat.ltb_spec a b); [cbn; intuition|].
  destruct (Nat.eqb_spec a b) as [->|]; cbn [In]; [intuition|]. rewrite IH. intuition.
Qed.
Lemma ninsert_sorted a l : StronglySorted lt l -> StronglySorted lt (ninsert a l).
Proof.
  induction 1 as [|b l S IH F]; cbn [ninsert]; [repeat constructor|]. destruct (Nat.ltb_spec a b).
  - constructor; [now constructor|]. constructor; auto. rewrite Forall_forall in *. intros x I. specialize (F x I). lia.
  - destruct (Nat.eqb_spec a b) as [->|]; [now constructor|]. constructor; auto. rewrite Forall_forall in *. intros x I. apply ninsert_in in I. destruct I as [->|I]; [lia|auto].
Qed.
Lemma nunique_in l x : In x (nunique l) <-> In x l.
Proof. unfold nunique. induction l as [|a l IH]; cbn; [tauto|]. rewrite ninsert_in, IH. intuition. Qed.
Lemma nunique_sorted l : StronglySorted lt (nunique l).
Proof. unfold nunique. induction l as [|a l IH]; cbn; [constructor|]. now apply ninsert_sorted. Qed.
Lemma filter_sorted {A} (R : A -> A -> Prop) p l : StronglySorted R l -> StronglySorted R (filter p l).
Proof.
  induction 1 as [|b l S IH F]; cbn; [constructor|]. destruct (p b); auto. constructor; auto. rewrite Forall_forall in *. intros x I. apply filter_In in I. now apply F.
Qed.
Lemma map_sorted {A B} (R : A -> A -> Prop) (Q : B -> B -> Prop) (g : A -> B) l : (forall x y, R x y -> Q (g x) (g y)) -> StronglySorted R l -> StronglySorted Q (map g l).
Proof.
  intros H. induction 1 as [|b l S IH F]; cbn; constructor; auto. rewrite Forall_forall in *. intros x I. apply in_map_iff in I. destruct I as [y [<- I]]. auto.
Qed.
Lemma row_major_flat B i j : B <> 0 -> i < j -> row_major (i / B, i mod B) (j / B, j mod B).
Proof.
  intros NB L. unfold row_major. cbn. pose proof (Nat.div_mod i B NB). pose proof (Nat.div_mod j B NB).
  assert (i / B <= j / B) by (apply Nat.div_le_mono; lia). destruct (Nat.eq_dec (i / B) (j / B)) as [E|]; [right|left; lia]. split; auto. rewrite E in H. lia.
Qed.
Lemma flat_inj B f b f' b' : b < B -> b' < B -> B * f + b = B * f' + b' -> f = f' /\ b = b'.
Proof. intros. apply (Nat.div_mod_unique B); auto. Qed.
Lemma flat_back B f b : b < B -> ((B * f + b) / B, (B * f + b) mod B) = (f, b).
Proof. intros. symmetry. f_equal; [eapply Nat.div_unique; eauto|eapply Nat.mod_unique; eauto]. Qed.

Lemma filter_tied_spec cand tied B :
  (forall c, In c cand -> snd c < B) -> (forall c, In c tied -> snd c < B) ->
  (forall c, In c (filter_tied_arms cand tied B) <-> In c cand /\ ~ In c tied) /\
  StronglySorted row_major (filter_tied_arms cand tied B).
Proof.
  intros HC HT. unfold filter_tied_arms. set (flat := map (fun c : nat * nat => B * fst c + snd c)). split.
  - intros [f b]. rewrite in_map_iff. split.
    + intros [i [E I]]. apply filter_In in I. destruct I as [I N]. apply (proj1 (nunique_in _ _)) in I. unfold flat in I. apply in_map_iff in I. destruct I as [[f' b'] [<- I]].
      cbn [fst snd] in *. pose proof (HC _ I) as LB. cbn in LB. rewrite flat_back in E by auto. injection E as -> ->. split; auto. intros J.
      apply negb_true_iff in N. assert (X : existsb (Nat.eqb (B * f + b)) (flat tied) = true); [|congruence]. apply existsb_exists. exists (B * f + b). split; [|apply Nat.eqb_refl].
      unfold flat. apply in_map_iff. exists (f, b). auto.
    + intros [I N]. exists (B * f + b). pose proof (HC _ I) as LB. cbn in LB. split; [now apply flat_back|]. apply filter_In. split.
      * apply nunique_in. unfold flat. apply in_map_iff. exists (f, b). auto.
      * apply negb_true_iff. apply not_true_is_false. intros X. apply existsb_exists in X. destruct X as [i [J E]]. apply Nat.eqb_eq in E. subst i.
        unfold flat in J. apply in_map_iff in J. destruct J as [[f' b'] [E J]]. pose proof (HT _ J) as LB'. cbn in E, LB'.
        apply flat_inj in E; auto. destruct E as [-> ->]. contradiction.
  - destruct (Nat.eq_dec B 0) as [->|NB].
    + destruct cand as [|c cand]; [constructor|]. pose proof (HC c (or_introl eq_refl)). lia.
    + apply map_sorted with (R := lt); [intros; now apply row_major_flat|]. apply filter_sorted, nunique_sorted.
Qed.
Lemma row_major_nodup l : StronglySorted row_major l -> NoDup l.
Proof.
  induction 1 as [|b l S IH F]; constructor; auto. rewrite Forall_forall in F. intros I. apply F in I. unfold row_major in I. lia.
Qed.

(** ** Which values a DISCRETE histogram uses *)
Lemma foldM_seq_inv {S} (f : S -> nat -> res S) (P : nat -> S -> Prop) : forall n k s s',
  foldM f s (seq k n) = Ok s' -> P k s -> (forall i a b, P i a -> f a i = Ok b -> P (Datatypes.S i) b) -> P (k + n) s'.
Proof.
  induction n as [|n IH]; intros k s s' H H0 ST; cbn in H.
  - injection H as <-. now rewrite Nat.add_0_r.
  - apply rbind_ok in H. destruct H as [s1 [E H]]. rewrite <- Nat.add_succ_comm. eapply IH; eauto.
Qed.
Lemma discrete_list_inv d nb e : discrete_bin (Some d) nb = Ok e -> nb = length (dval_list d) -> d = DList e /\ e <> [].
Proof.
  intros H ->. destruct d as [l|l]; cbn [dval_list] in *.
  - destruct (discrete_set l (length l)) as [x E]. congruence.
  - destruct l as [|a l]; [discriminate H|]. rewrite discrete_list in H by discriminate. injection H as <-. split; [reflexivity|discriminate].
Qed.
Lemma make_discrete_edges ic data labels mm d B np st :
  make_histograms ic data labels mm (Some d) DISCRETE B np = Ok st ->
  forall i h, nth_error (mh_hists st) i = Some h -> exists l, dd_get d i = Ok (DList l) /\ l <> [] /\ h_edges h = Some l.
Proof.
  unfold make_histograms. intros H. apply rbind_ok in H. destruct H as [r0 [_ H]].
  refine (_ (foldM_seq_inv _ (fun k s => length (mh_hists s) = k /\ forall i h, nth_error (mh_hists s) i = Some h -> exists l, dd_get d i = Ok (DList l) /\ l <> [] /\ h_edges h = Some l) _ _ _ _ H _ _)).
  - intros [_ K]. exact K.
  - cbn. split; auto. intros [|i] h E; discriminate E.
  - clear. intros i s s' [L K] H. unfold mh_step in H. apply rbind_ok in H. destruct H as [c [_ H]].
    apply rbind_ok in H. destruct H as [[D uf] [ED H]]. apply rbind_ok in ED. destruct ED as [v [EV ED]].
    apply rbind_ok in H. destruct H as [[[nb mn] mx] [EN H]].
    destruct (Nat.eqb_spec (length (dval_list v)) 0) as [Z|Z]; injection ED as <- <-; [discriminate EN|]. injection EN as <- <- <-.
    apply rbind_ok in H. destruct H as [[h np'] [EH H]]. injection H as <-. unfold new_hist in EH. apply rbind_ok in EH. destruct EH as [e [EE EH]]. injection EH as <- <-.
    apply discrete_list_inv in EE; auto. destruct EE as [-> NE]. cbn [mh_hists]. rewrite app_length. cbn [length]. split; [lia|].
    intros j h E. destruct (Nat.lt_ge_cases j (length (mh_hists s))) as [LT|GE].
    + rewrite nth_error_app1 in E by auto. eauto.
    + rewrite nth_error_app2 in E by auto. destruct (j - length (mh_hists s)) as [|k] eqn:EJ; [|destruct k; discriminate E]. injection E as <-.
      assert (j = i) as -> by lia. exists e. auto.
Qed.
Lemma node_dictionary c t p idcs depth prop bins e nd e' : node_new c t p idcs depth prop bins e = Ok (nd, e') -> nd_dd nd = t_dd t.
Proof.
  unfold node_new. intros H. apply rbind_ok in H. destruct H as [[feats gen'] [_ H]]. repeat (apply rbind_ok in H; destruct H as [? [_ H]]). injection H as <- <-. reflexivity.
Qed.

(** A tree over the second feature only, with discrete values given for both. *)
Definition dd2 : ddict := {| dd_default := true; dd_items := [(0, DList [frac 3 2; z 3]); (1, DList [z 1; z 2])] |}.
Definition second_only : targs :=
  {| ta_data := [[z 3; z 1]; [frac 3 2; z 1]; [z 3; z 2]; [frac 3 2; z 2]]; ta_labels := [z 0; z 0; z 1; z 1]; ta_budget := None;
     ta_dd := Some dd2; ta_seed := 7; ta_idcs := None; ta_feats := Some [1] |}.
Definition split_of (t : tree) (id : nat) : option (nat * Qc) :=
  match nth_error (t_nodes t) id with Some nd => match nd_sf nd, nd_sv nd with Some f, Some v => Some (f, v) | _, _ => None end | None => None end.
Lemma wrong_feature_cut : exists t, run (tree_cfg true FSNone DISCRETE EXACT 10) second_only = Ok t /\
  split_of t 0 = Some (1, frac 3 2) /\ dd_get dd2 1 = Ok (DList [z 1; z 2]) /\ ~ In (frac 3 2) [z 1; z 2].
Proof.
  assert (K : check (run (tree_cfg true FSNone DISCRETE EXACT 10) second_only)
    (fun t => match split_of t 0 with Some (1, v) => qeq v (frac 3 2) | _ => false end) = true) by (vm_compute; reflexivity).
  destruct (run (tree_cfg true FSNone DISCRETE EXACT 10) second_only) as [t|]; [|discriminate K]. exists t. split; [reflexivity|]. split.
  - cbn [check] in K. destruct (split_of t 0) as [[[|[|n]] v]|]; try discriminate K. apply qeq_spec in K. now subst.
  - split; [reflexivity|]. intros [E|[E|[]]]; discriminate E.
Qed.
Lemma counts_any d labels cs : good_classes d -> counts_of_labels d labels = Ok cs ->
  length cs = length d /\ (forall y, In y labels -> In y (map fst d)) /\
  (forall k i, In (k, i) d -> nth_error cs i = Some (occurrences k labels)) /\ list_sum cs = length labels.
Proof.
  intros G H. pose proof (counts_total _ _ _ G H) as S. apply counts_of_labels_spec in H; auto. destruct H as [A [B C]]. auto.
Qed.
Lemma filter_tied_exact cand tied B :
  (forall c, In c cand -> snd c < B) -> (forall c, In c tied -> snd c < B) ->
  (forall c, In c (filter_tied_arms cand tied B) <-> In c cand /\ ~ In c tied) /\
  NoDup (filter_tied_arms cand tied B) /\ StronglySorted row_major (filter_tied_arms cand tied B).
Proof. intros H1 H2. destruct (filter_tied_spec cand tied B H1 H2) as [A S]. split; auto. split; auto. now apply row_major_nodup. Qed.
Lemma discrete_limit_ignored : exists data n d v, rectangular 1 data /\ data_to_discrete data n = Ok d /\
  assoc 0 (dd_items d) = Some v /\ n < length (distinct (feature_values 0 data)).
Proof.
  exists [[z 1]; [z 2]; [z 3]], 2. eexists. eexists. split; [|split; [reflexivity|split; [reflexivity|cbn; lia]]].
  intros r I. repeat (destruct I as [<-|I]; [reflexivity|]). destruct I.
Qed.

(** The automatic bin type is the cheapest one. *)
Lemma bin_type_cheapest D N B bt : choose_bin_type D N B = bt <-> cheapest D N B bt.
Proof.
  split.
  - intros <-. unfold choose_bin_type. destruct D as [d|].
    + destruct (Nat.eqb_spec (Nat.min d (Nat.min N B)) d) as [E|E]; [split; cbn; lia|].
      destruct (Nat.eqb_spec (Nat.min d (Nat.min N B)) N) as [E'|E']; split; cbn; lia.
    + destruct (Nat.eqb_spec (Nat.min N B) N) as [E|E]; split; cbn; auto; lia.
  - intros H. unfold choose_bin_type. destruct D as [d|], bt; cbn in H; try contradiction; try (destruct H as [H1 H2]); try lia.
    + destruct (Nat.eqb_spec (Nat.min d (Nat.min N B)) d); [lia|]. destruct (Nat.eqb_spec (Nat.min d (Nat.min N B)) N); [lia|auto].
    + destruct (Nat.eqb_spec (Nat.min d (Nat.min N B)) d); [auto|lia].
    + destruct (Nat.eqb_spec (Nat.min d (Nat.min N B)) d); [lia|]. destruct (Nat.eqb_spec (Nat.min d (Nat.min N B)) N); [auto|lia].
    + destruct (Nat.eqb_spec (Nat.min N B) N); [lia|auto].
    + destruct (Nat.eqb_spec (Nat.min N B) N); [auto|lia].
Qed.

(** ** The automatic bin type *)
Lemma assoc_find f (l : list (nat * dval)) : assoc f l = match find (fun kv => fst kv =? f) l with Some (_, v) => Some v | None => None end.
Proof. induction l as [|[k v] l IH]; cbn; [reflexivity|]. destruct (Nat.eqb_spec f k) as [->|N]; [now rewrite Nat.eqb_refl|]. destruct (Nat.eqb_spec k f); [congruence|exact IH]. Qed.

Lemma listed_read dd f D uf :
  match dd with
  | None => Ok (None, None)
  | Some d => do v <- dd_get d f; if length (dval_list v) =? 0 then Ok (None, None) else Ok (Some (length (dval_list v)), Some v)
  end = Ok (D : option nat, uf : option dval) -> D = listed dd f.
Proof.
  intros H. destruct dd as [d|]; [|injection H as <- _; reflexivity]. apply rbind_ok in H. destruct H as [v [E H]].
  unfold dd_get in E. unfold listed. rewrite assoc_find in E. destruct (find _ (dd_items d)) as [[k u]|].
  - injection E as ->. destruct (length (dval_list v)); injection H as <- _; reflexivity.
  - destruct (dd_default d); [|discriminate E]. injection E as <-. injection H as <- _. reflexivity.
Qed.

Lemma auto_step ic data cl mm dd B s f s' :
  mh_step ic data cl mm dd BAuto B s f = Ok s' -> left_behind dd (length data) B f (mh_nb s) ->
  left_behind dd (length data) B (S f) (mh_nb s') /\
  exists h fd, mh_hists s' = mh_hists s ++ [h] /\ col data f = Ok fd /\ auto_hist dd (length data) B f (mh_nb s) fd mm h.
Proof.
  intros H LB. unfold mh_step in H.
  apply rbind_ok in H. destruct H as [fd [Ec H]].
  apply rbind_ok in H. destruct H as [[D uf] [Ed H]]. apply listed_read in Ed. subst D. cbv iota beta in H.
  pose proof (proj1 (bin_type_cheapest (listed dd f) (length data) B _) eq_refl) as CH.
  set (ty := choose_bin_type (listed dd f) (length data) B) in *.
  assert (UQ : forall bt, cheapest (listed dd f) (length data) B bt -> bt = ty) by (intros bt C; symmetry; now apply bin_type_cheapest).
  apply rbind_ok in H. destruct H as [[[nb mn] mx] [En H]].
  apply rbind_ok in H. destruct H as [[h t'] [Eh H]].
  injection H as <-. cbn [mh_nb mh_hists].
  assert (KN : left_behind dd (length data) B (S f) nb).
  { destruct ty eqn:T; cbn in CH; try contradiction.
    - destruct mm as [[? ?]|]; apply rbind_ok in En; destruct En as [a [_ En]]; apply rbind_ok in En; destruct En as [b [_ En]]; injection En as <- _ _; apply lb_spaced; auto.
    - destruct dd as [d|]; [|discriminate En]. destruct (listed (Some d) f) as [k|] eqn:L; [|discriminate En]. injection En as <- _ _. eapply lb_listed; eauto.
    - injection En as <- _ _. eapply lb_values; eauto. }
  split; [exact KN|]. exists h, fd. split; [reflexivity|]. split; [exact Ec|]. split.
  { unfold new_hist in Eh. destruct ty; [destruct (qeq mn mx)|apply rbind_ok in Eh; destruct Eh as [x [_ Eh]]| |destruct (random_bin mn mx nb (mh_np s))|discriminate Eh|discriminate Eh]; injection Eh as <- _; reflexivity. }
  split; [|split].
  - intros d L C. rewrite L in *. rewrite <- (UQ _ C) in En, Eh. destruct dd as [dt|]; [|discriminate En]. injection En as <- _ _. cbn in Eh.
    apply rbind_ok in Eh. destruct Eh as [x [_ Eh]]. injection Eh as <- _. auto.
  - intros C. rewrite <- (UQ _ C) in En, Eh. cbn in Eh. injection Eh as <- _. split; [reflexivity|]. exists (unique fd). repeat split; [apply unique_nodup|apply unique_in|apply unique_in].
  - intros C. rewrite <- (UQ _ C) in En, Eh. cbn in Eh.
    destruct mm as [[l1 l2]|]; apply rbind_ok in En; destruct En as [a [E1 En]]; apply rbind_ok in En; destruct En as [b [E2 En]]; injection En as <- <- <-;
      (split; [destruct (qeq a b); injection Eh as <- _; reflexivity|]); exists a, b; (split; [rewrite <- ?nth_res_ok; split; (assumption || (now apply list_min_spec) || (now apply list_max_spec))|]);
      (split; [intros ->; rewrite (qeq_refl b) in Eh; injection Eh as <- _; reflexivity
              |intros N; rewrite (proj2 (NumFacts.qeq_false a b) N) in Eh; injection Eh as <- _; reflexivity]).
Qed.

Lemma auto_bins ic data labels mm dd B np mh j h : make_histograms ic data labels mm dd BAuto B np = Ok mh -> nth_error (mh_hists mh) j = Some h ->
  exists n fd, left_behind dd (length data) B j n /\ col data j = Ok fd /\ auto_hist dd (length data) B j n fd mm h.
Proof.
  intros H Hj. unfold make_histograms in H. apply rbind_ok in H. destruct H as [r [E H]].
  set (cl := if ic then unique labels else []) in *.
  set (good := fun (s : mhstate) => forall i g, nth_error (mh_hists s) i = Some g -> exists n fd, left_behind dd (length data) B i n /\ col data i = Ok fd /\ auto_hist dd (length data) B i n fd mm g).
  assert (K : forall n k s1 s2, length (mh_hists s1) = k -> left_behind dd (length data) B k (mh_nb s1) -> good s1 ->
     foldM (mh_step ic data cl mm dd BAuto B) s1 (seq k n) = Ok s2 -> good s2).
  { induction n as [|n IH]; intros k s1 s2 L LB I F; cbn in F; [now injection F as <-|].
    apply rbind_ok in F. destruct F as [s3 [E3 F]].
    destruct (auto_step _ _ _ _ _ _ _ _ _ E3 LB) as [LB3 (g & fd & Eh & Ec & A)].
    apply (IH (S k) s3 s2); auto.
    + rewrite Eh, app_length. cbn. lia.
    + intros i g' N. rewrite Eh in N. destruct (Nat.eq_dec i k) as [->|NE].
      * rewrite nth_error_app2, L, Nat.sub_diag in N by lia. injection N as <-. eauto.
      * apply I. rewrite nth_error_app1 in N; auto.
        assert (X : i < length (mh_hists s1 ++ [g])) by (apply nth_error_Some; congruence). rewrite app_length in X. cbn in X. lia. }
  apply K in H; [exact (H j h Hj)|reflexivity|apply lb_start|]. intros [|i] g N; discriminate N.
Qed.

(** Two columns; with values listed for the first one, the second gets two bins instead of three. *)
Definition two_columns : list (list Qc) := [[z 0; z 1]; [z 1; z 2]; [z 0; z 3]; [z 1; z 4]].
Definition first_listed : option ddict := Some {| dd_default := true; dd_items := [(0, DList [z 0; z 1])] |}.
Lemma bins_leak : exists data labels dd B mh mh' h h', make_histograms true data labels None dd BAuto B [] = Ok mh /\ make_histograms true data labels None None BAuto B [] = Ok mh' /\
  listed dd 1 = None /\ nth_error (mh_hists mh) 1 = Some h /\ nth_error (mh_hists mh') 1 = Some h' /\ h_nb h <> h_nb h'.
Proof.
  exists two_columns, [z 0; z 1; z 0; z 1], first_listed, 3.
  eexists _, _, _, _. split; [vm_compute; reflexivity|]. split; [vm_compute; reflexivity|]. split; [reflexivity|].
  split; [reflexivity|]. split; [reflexivity|]. cbn. discriminate.
Qed.
Lemma left_ex : left_behind first_listed 4 3 1 2 /\ cheapest (listed first_listed 1) 4 3 LINEAR /\ cheapest (listed first_listed 0) 4 3 DISCRETE.
Proof.
  assert (C : cheapest (listed first_listed 0) 4 3 DISCRETE) by (cbn; lia). split; [|split; [cbn; lia|exact C]].
  eapply (lb_listed _ _ _ 0 3 2); [apply lb_start|reflexivity|exact C].
Qed.

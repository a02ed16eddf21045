(** Facts about data_structures/permutation.py. *)
From Coq Require Import List Arith Bool ZArith QArith Qcanon Lia Permutation Sorted.
From Verif Require Import Base Num Rng Histogram Utils Criteria Solvers Tree Forest Permutation.
From Verif Require Import Spec TreeSpec ForestSpec PermSpec ListFacts NumFacts HistFacts HistAdd MabLoop TreeFacts UtilsFacts.
Import ListNotations.
Local Open Scope nat_scope.

(** ** Sets of ranks *)
Lemma nunique_nodup l : NoDup (nunique l).
Proof. pose proof (nunique_sorted l) as S. induction S as [|b t S IH F]; constructor; auto. rewrite Forall_forall in F. intros I. apply F in I. lia. Qed.
Lemma nodup_same_length {A} (l l' : list A) : NoDup l -> NoDup l' -> (forall x, In x l <-> In x l') -> length l = length l'.
Proof. intros N N' H. apply Nat.le_antisymm; apply NoDup_incl_length; auto; intros x; apply H. Qed.
Lemma existsb_nat x l : existsb (Nat.eqb x) l = true <-> In x l.
Proof. rewrite existsb_exists. split; [intros [y [I E]]; apply Nat.eqb_eq in E; now subst|intros I; exists x; split; auto; apply Nat.eqb_refl]. Qed.
Lemma inter_list_in a b x : In x (filter (fun x => existsb (Nat.eqb x) b) (nunique a)) <-> In x a /\ In x b.
Proof. rewrite filter_In, existsb_nat, (nunique_in a). tauto. Qed.
Lemma inter_sym a b : inter_size a b = inter_size b a.
Proof.
  unfold inter_size. apply nodup_same_length; try (apply NoDup_filter, nunique_nodup). intros x. rewrite !inter_list_in. tauto.
Qed.
Lemma union_sym a b : union_size a b = union_size b a.
Proof. unfold union_size. apply nodup_same_length; try apply nunique_nodup. intros x. rewrite !nunique_in, !in_app_iff. tauto. Qed.
Lemma inter_le_union a b : inter_size a b <= union_size a b.
Proof.
  unfold inter_size, union_size. apply NoDup_incl_length; [apply NoDup_filter, nunique_nodup|]. intros x I. apply inter_list_in in I. apply nunique_in, in_app_iff. tauto.
Qed.
Lemma union_pos a b : a <> [] -> 0 < union_size a b.
Proof.
  unfold union_size. intros N. destruct a as [|x a]; [contradiction|]. assert (I : In x (nunique ((x :: a) ++ b))) by (apply nunique_in; now left).
  destruct (nunique ((x :: a) ++ b)); [destruct I|cbn; lia].
Qed.
Lemma inter_self a : inter_size a a = union_size a a.
Proof.
  unfold inter_size, union_size. apply nodup_same_length; [apply NoDup_filter, nunique_nodup|apply nunique_nodup|]. intros x. rewrite inter_list_in, nunique_in, in_app_iff. tauto.
Qed.
Lemma inter_self_nodup a : NoDup a -> inter_size a a = length a.
Proof. intros N. unfold inter_size. apply nodup_same_length; [apply NoDup_filter, nunique_nodup|auto|]. intros x. rewrite inter_list_in. tauto. Qed.

Lemma qsum_range {A} (g : A -> Qc) l : (forall x, In x l -> (0 <= g x)%Qc /\ (g x <= 1)%Qc) -> (0 <= qsum (map g l))%Qc /\ (qsum (map g l) <= Nq (length l))%Qc.
Proof.
  induction l as [|a l IH]; intros H; cbn [map qsum length]; [split; apply Qcle_refl|]. destruct (H a (or_introl eq_refl)) as [A1 A2]. destruct IH as [B1 B2]; [intros x I; apply H; now right|].
  rewrite Nq_S. split; qlra.
Qed.

(** ** Jaccard *)
Lemma jaccard_ok v1 v2 : v1 <> [] -> exists q, pairwise_stability JACCARD v1 v2 = Ok q /\
  (0 <= q)%Qc /\ (q <= (rat (length v1) - 1) / rat (length v1))%Qc.
Proof.
  intros NE. unfold pairwise_stability. assert (L : 0 < length v1) by (destruct v1; [contradiction|cbn; lia]).
  destruct (Nat.eqb_spec (length v1) 0); [lia|]. cbn [negb guard rbind]. eexists. split; [reflexivity|].
  match goal with |- context [qsum (map ?g ?l)] => pose proof (qsum_range g l) as [A B] end.
  { intros i I. assert (FN : firstn (i + 1) v1 <> []) by (destruct v1; [contradiction|rewrite Nat.add_comm; discriminate]). pose proof (union_pos _ (firstn (i + 1) v2) FN) as U.
    pose proof (inter_le_union (firstn (i + 1) v1) (firstn (i + 1) v2)) as LE. split.
    - apply qle_div_iff; [now apply Nq_pos|]. rewrite Qcmult_0_l. apply Nq_nonneg.
    - apply qdiv_le_iff; [now apply Nq_pos|]. rewrite Qcmult_1_l. now apply Nq_le. }
  rewrite seq_length in B. change rat with Nq. pose proof (Nq_pos _ L) as LP. split.
  - apply (proj2 (qle_div_iff _ _ _ LP)). rewrite Qcmult_0_l. exact A.
  - assert (E : Nq (length v1 - 1) = (Nq (length v1) - 1)%Qc). { destruct (length v1) as [|n0]; [lia|]. rewrite Nq_S. cbn. rewrite Nat.sub_0_r. ring. }
    rewrite E in B. apply qdiv_le_iff; auto. rewrite qdiv_mult; [auto|]. now apply Nq_neq0.
Qed.
Lemma jaccard_self v : v <> [] -> pairwise_stability JACCARD v v = Ok ((rat (length v) - 1) / rat (length v))%Qc.
Proof.
  intros NE. unfold pairwise_stability. assert (L : 0 < length v) by (destruct v; [contradiction|cbn; lia]).
  destruct (Nat.eqb_spec (length v) 0); [lia|]. cbn [negb guard rbind]. do 2 f_equal.
  rewrite (qsum_map_ext _ (fun _ => 1%Qc)).
  - rewrite qsum_map_const, seq_length, Nq_minus by lia. rewrite Nq_1. change rat with Nq. ring.
  - intros i I. rewrite inter_self. assert (FN : firstn (i + 1) v <> []) by (destruct v; [contradiction|rewrite Nat.add_comm; discriminate]).
    pose proof (Nq_neq0 _ (union_pos _ (firstn (i + 1) v) FN)) as U. unfold Qcdiv. now apply Qcmult_inv_r.
Qed.

(** ** Symmetry *)
Lemma stability_sym m v1 v2 : length v1 = length v2 -> pairwise_stability m v1 v2 = pairwise_stability m v2 v1.
Proof.
  intros L. destruct m; cbn [pairwise_stability]; rewrite <- ?L; auto.
  - rewrite (qsum_map_ext _ (fun i => Nq (inter_size (firstn (i + 1) v2) (firstn (i + 1) v1)) / Nq (union_size (firstn (i + 1) v2) (firstn (i + 1) v1)))%Qc); [reflexivity|]. intros i _. now rewrite inter_sym, union_sym.
  - f_equal. apply mapM_ext. intros i I. apply in_seq in I. unfold nth_res. destruct (nth_error v1 i) eqn:A; [|apply nth_error_None in A; lia].
    destruct (nth_error v2 i) eqn:B; [|apply nth_error_None in B; lia]. cbn. f_equal. ring.
  - cbv zeta. rewrite (qsum_map_ext _ (fun i => (Nq (inter_size (firstn (i + 1) v2) (firstn (i + 1) v1)) - Nq i * Nq i / Nq (length v1)) / (Nq i - Nq i * Nq i * Nq (length v1)))%Qc); [reflexivity|].
    intros i _. now rewrite inter_sym.
Qed.

(** ** Spearman *)
Lemma spearman_mapM a : forall b k, length a = length b -> mapM (fun i => do x <- nth_res (repeat 0 k ++ a) i; do y <- nth_res (repeat 0 k ++ b) i;
  let d := (Nq x - Nq y)%Qc in Ok (d * d)%Qc) (seq k (length a)) = Ok (map (fun ab => (rat (fst ab) - rat (snd ab)) * (rat (fst ab) - rat (snd ab)))%Qc (combine a b)).
Proof.
  induction a as [|x a IH]; intros b k L; destruct b as [|y b]; try discriminate; [reflexivity|]. cbn [length seq mapM combine map fst snd].
  unfold nth_res at 1 2. rewrite !nth_error_app2 by (rewrite repeat_length; lia). rewrite repeat_length, Nat.sub_diag. cbn [nth_error opt_res rbind].
  specialize (IH b (S k)). cbn in L. rewrite (mapM_ext _ (fun i => do x <- nth_res (repeat 0 (S k) ++ a) i; do y <- nth_res (repeat 0 (S k) ++ b) i;
     let d := (Nq x - Nq y)%Qc in Ok (d * d)%Qc)).
  - rewrite IH by lia. reflexivity.
  - intros i I. apply in_seq in I. unfold nth_res. rewrite !nth_error_app2 by (rewrite repeat_length; lia). rewrite !repeat_length.
    replace (i - k) with (S (i - S k)) by lia. reflexivity.
Qed.
Lemma spearman_value v1 v2 : length v1 = length v2 -> 2 <= length v1 ->
  pairwise_stability SPEARMAN v1 v2 = Ok (1 - rat 6 * rank_distance v1 v2 / (rat (length v1) * (rat (length v1) * rat (length v1) - 1)))%Qc.
Proof.
  intros L L2. destruct v1 as [|x v1]; [cbn in L2; lia|]. destruct v2 as [|y v2]; [discriminate|]. unfold pairwise_stability. cbv zeta. cbn [length] in *.
  replace (S (length v1) - 1) with (length v1) by lia.
  assert (E : mapM (fun i => do a <- nth_res (x :: v1) i; do b <- nth_res (y :: v2) i; let d := (Nq a - Nq b)%Qc in Ok (d * d)%Qc) (seq 1 (length v1)) =
     Ok (map (fun ab => (rat (fst ab) - rat (snd ab)) * (rat (fst ab) - rat (snd ab)))%Qc (combine v1 v2))).
  { rewrite <- (spearman_mapM v1 v2 1) by lia. apply mapM_ext. intros i I. apply in_seq in I. destruct i as [|i]; [lia|]. reflexivity. }
  cbv zeta in E. rewrite E. cbn [rbind]. destruct (Nat.ltb_spec 1 (S (length v1))); [|lia]. cbn [guard rbind]. reflexivity.
Qed.
Lemma sq_nonneg (x : Qc) : (0 <= x * x)%Qc. Proof. qnra. Qed.
Lemma rank_distance_nonneg v1 v2 : (0 <= rank_distance v1 v2)%Qc.
Proof. unfold rank_distance. change total with qsum. apply qsum_nonneg. intros q I. apply in_map_iff in I. destruct I as [[a b] [<- _]]. apply sq_nonneg. Qed.
Lemma rank_distance_zero v1 v2 : length v1 = length v2 -> (rank_distance v1 v2 = 0%Qc <-> tl v1 = tl v2).
Proof.
  intros L. destruct v1 as [|x v1], v2 as [|y v2]; try discriminate; [cbn; tauto|]. unfold rank_distance. cbn [combine tl]. change total with qsum. injection L as L. split.
  - intros Z. assert (D : forall ab, In ab (combine v1 v2) -> fst ab = snd ab).
    { intros [a b] I. pose proof (fun H => qsum_zero _ H Z ((rat a - rat b) * (rat a - rat b))%Qc) as K. assert (E : ((rat a - rat b) * (rat a - rat b) = 0)%Qc).
      { apply K; [|apply in_map_iff; now exists (a, b)]. intros q J. apply in_map_iff in J. destruct J as [[c d] [<- _]]. apply sq_nonneg. }
      apply Qcmult_integral in E. cbn. apply Nq_inj. change Nq with rat. destruct E as [E|E]; qlra. }
    clear Z. revert v2 L D. induction v1 as [|a v1 IH]; intros [|b v2] L D; try discriminate; auto. f_equal; [apply (D (a, b)); now left|]. apply IH; [now injection L|]. intros ab I. apply D. now right.
  - intros <-. rewrite (qsum_map_ext _ (fun _ => 0%Qc)); [rewrite qsum_map_const; ring|]. intros [a b] I. cbn. assert (E : a = b) by (clear L; induction v1; cbn in I; [destruct I|destruct I as [I|I]; [congruence|auto]]). subst. ring.
Qed.
Lemma spearman_denominator n : 2 <= n -> (0 < rat n * (rat n * rat n - 1))%Qc.
Proof. intros H. apply qmult_lt_0; [apply Nq_pos; lia|]. change rat with Nq. assert (Nq 2 <= Nq n)%Qc by (now apply Nq_le). change (Nq 2) with (1 + 1)%Qc in *. qnra. Qed.
Lemma spearman_le v1 v2 : length v1 = length v2 -> 2 <= length v1 -> exists q, pairwise_stability SPEARMAN v1 v2 = Ok q /\ (q <= 1)%Qc /\ (q = 1%Qc <-> tl v1 = tl v2).
Proof.
  intros L L2. eexists. split; [now apply spearman_value|]. pose proof (spearman_denominator _ L2) as D. set (d := (rat (length v1) * _)%Qc) in *.
  pose proof (rank_distance_nonneg v1 v2) as NN. assert (S6 : (0 < rat 6)%Qc) by reflexivity. split.
  - assert (0 <= rat 6 * rank_distance v1 v2 / d)%Qc by (apply qdiv_le_0; auto; qnra). qlra.
  - rewrite <- rank_distance_zero by auto. split.
    + intros E. assert (E' : (rat 6 * rank_distance v1 v2 / d = 0)%Qc) by qlra. assert (DN : d <> 0%Qc) by (intros Z; rewrite Z in D; exact (Qclt_not_le _ _ D (Qcle_refl _))).
      assert (F : (rat 6 * rank_distance v1 v2 = 0)%Qc) by (rewrite <- (qdiv_mult (rat 6 * rank_distance v1 v2)%Qc d DN), E'; ring). apply Qcmult_integral in F. destruct F as [F|F]; [discriminate|auto].
    + intros ->. unfold Qcdiv. ring.
Qed.

(** Rankings without ties. *)
Lemma sum_first n : qsum (map Nq (seq 1 n)) = (Nq n * (Nq n + 1) / (1 + 1))%Qc.
Proof.
  induction n as [|n IH]; [apply Qc_is_canon; reflexivity|]. rewrite seq_S, map_app, qsum_app, IH. cbn [map qsum]. replace (1 + n) with (S n) by lia. rewrite (Nq_S n). field. discriminate.
Qed.
Lemma sum_first_sq n : qsum (map (fun i => Nq i * Nq i)%Qc (seq 1 n)) = (Nq n * (Nq n + 1) * ((1 + 1) * Nq n + 1) / rat 6)%Qc.
Proof.
  induction n as [|n IH]; [apply Qc_is_canon; reflexivity|]. rewrite seq_S, map_app, qsum_app, IH. cbn [map qsum]. replace (1 + n) with (S n) by lia. rewrite (Nq_S n).
  replace (rat 6) with (1 + 1 + 1 + 1 + 1 + 1)%Qc by (apply Qc_is_canon; reflexivity). field. discriminate.
Qed.
Lemma qsum_combine_sq (K : Qc) : forall v1 v2, length v1 = length v2 ->
  (qsum (map (fun ab => (rat (fst ab) - rat (snd ab)) * (rat (fst ab) - rat (snd ab)))%Qc (combine v1 v2)) +
   qsum (map (fun ab => (rat (fst ab) + rat (snd ab) - K) * (rat (fst ab) + rat (snd ab) - K))%Qc (combine v1 v2)) =
   (1 + 1) * (qsum (map (fun i => Nq i * Nq i)%Qc v1) + qsum (map (fun i => Nq i * Nq i)%Qc v2)) - (1 + 1) * K * (qsum (map Nq v1) + qsum (map Nq v2)) + Nq (length v1) * (K * K))%Qc.
Proof.
  induction v1 as [|a v1 IH]; intros [|b v2] L; try discriminate; [cbn; rewrite Nq_0; ring|]. injection L as L. cbn [combine map qsum length fst snd]. specialize (IH v2 L).
  rewrite Nq_S. set (s1 := qsum (map _ (combine v1 v2))) in *. clearbody s1. set (s2 := qsum (map _ (combine v1 v2))) in *. change rat with Nq in *.
  transitivity ((Nq a - Nq b) * (Nq a - Nq b) + (Nq a + Nq b - K) * (Nq a + Nq b - K) + (s1 + s2))%Qc; [ring|]. rewrite IH. ring.
Qed.
Lemma spearman_rankings n v1 v2 : 2 <= n -> ranking n v1 -> ranking n v2 -> exists q, pairwise_stability SPEARMAN v1 v2 = Ok q /\ (- (1) <= q)%Qc /\ (q <= 1)%Qc /\ (q = 1%Qc <-> v1 = v2).
Proof.
  intros N R1 R2. pose proof (Permutation_length R1) as L1. pose proof (Permutation_length R2) as L2. rewrite seq_length in *.
  destruct (spearman_le v1 v2) as (q & E & LE & EQ); [congruence|lia|]. exists q. split; auto. split; [|split; auto].
  - rewrite spearman_value in E by lia. injection E as <-. rewrite L1 in *. pose proof (spearman_denominator n N) as D.
    pose proof (qsum_combine_sq (Nq n + 1) v1 v2 (eq_trans L1 (eq_sym L2))) as S. rewrite L1 in S.
    rewrite (qsum_perm _ _ (Permutation_map Nq R1)), (qsum_perm _ _ (Permutation_map Nq R2)), (qsum_perm _ _ (Permutation_map (fun i => Nq i * Nq i)%Qc R1)), (qsum_perm _ _ (Permutation_map (fun i => Nq i * Nq i)%Qc R2)) in S.
    rewrite sum_first, sum_first_sq in S.
    assert (P0 : (0 <= qsum (map (fun ab => (rat (fst ab) + rat (snd ab) - (Nq n + 1)) * (rat (fst ab) + rat (snd ab) - (Nq n + 1))) (combine v1 v2)))%Qc).
    { apply qsum_nonneg. intros x I. apply in_map_iff in I. destruct I as [[a b] [<- _]]. apply sq_nonneg. }
    assert (P1 : (rank_distance v1 v2 <= qsum (map (fun ab => (rat (fst ab) - rat (snd ab)) * (rat (fst ab) - rat (snd ab))) (combine v1 v2)))%Qc).
    { unfold rank_distance. change total with qsum. destruct (combine v1 v2) as [|[a b] l]; [apply Qcle_refl|]. cbn [tl map qsum fst snd]. pose proof (sq_nonneg (rat a - rat b)). qlra. }
    set (A := qsum (map _ (combine v1 v2))) in *. clearbody A. set (B := qsum (map _ (combine v1 v2))) in *. set (d := rank_distance v1 v2) in *.
    assert (E : ((1 + 1) * (Nq n * (Nq n + 1) * ((1 + 1) * Nq n + 1) / rat 6 + Nq n * (Nq n + 1) * ((1 + 1) * Nq n + 1) / rat 6) -
       (1 + 1) * (Nq n + 1) * (Nq n * (Nq n + 1) / (1 + 1) + Nq n * (Nq n + 1) / (1 + 1)) + Nq n * ((Nq n + 1) * (Nq n + 1)) = Nq n * (Nq n * Nq n - 1) / (1 + 1 + 1))%Qc).
    { replace (rat 6) with (1 + 1 + 1 + 1 + 1 + 1)%Qc by (apply Qc_is_canon; reflexivity). field. repeat split; discriminate. }
    rewrite E in S. clear E. change rat with Nq in D. set (X := (Nq n * (Nq n * Nq n - 1))%Qc) in *. change (rat n * (rat n * rat n - 1))%Qc with X.
    assert (DX : ((1 + 1 + 1) * d <= X)%Qc). { assert (T : ((1 + 1 + 1) * (A + B) = X)%Qc) by (rewrite S; field; discriminate). qlra. }
    assert (LQ : (rat 6 * d / X <= 1 + 1)%Qc). { apply qdiv_le_iff; auto. replace (rat 6) with ((1 + 1) * (1 + 1 + 1))%Qc by (apply Qc_is_canon; reflexivity). qlra. }
    qlra.
  - rewrite EQ. split; [|now intros ->]. intros T. destruct v1 as [|a v1], v2 as [|b v2]; try (cbn in *; lia). cbn in T. subst v2. f_equal.
    pose proof (Permutation_trans R1 (Permutation_sym R2)) as PP. assert (I : In a (b :: v1)) by (apply (Permutation_in _ PP); now left). destruct I as [I|I]; auto.
    exfalso. assert (ND : NoDup (a :: v1)) by (apply (Permutation_NoDup (Permutation_sym R1)); apply seq_NoDup). now inversion ND.
Qed.

(** ** Kuncheva *)
Lemma nodup_firstn {A} n (l : list A) : NoDup l -> NoDup (firstn n l).
Proof. intros N. rewrite <- (firstn_skipn n l) in N. revert N. generalize (skipn n l). intros r N. induction (firstn n l) as [|a t IH]; constructor; inversion N; subst; auto. intros I. apply H1. apply in_app_iff. now left. Qed.
Lemma kuncheva_self v : NoDup v -> 2 <= length v -> exists q, pairwise_stability KUNCHEVA v v = Ok q /\ (q < 0)%Qc.
Proof.
  intros ND L. unfold pairwise_stability. destruct (Nat.eqb_spec (length v) 0); [lia|]. cbn [negb guard rbind]. eexists. split; [reflexivity|].
  assert (LP : (0 < Nq (length v))%Qc) by (apply Nq_pos; lia). apply qdiv_lt_iff; auto. rewrite Qcmult_0_l.
  assert (T : forall i, In i (seq 1 (length v - 1)) -> ((Nq (inter_size (firstn (i + 1) v) (firstn (i + 1) v)) - Nq i * Nq i / Nq (length v)) / (Nq i - Nq i * Nq i * Nq (length v)) < 0)%Qc).
  { intros i I. apply in_seq in I. rewrite inter_self_nodup by (apply nodup_firstn; auto). rewrite firstn_length_le by lia.
    assert (A : (Nq i * Nq i / Nq (length v) < Nq (i + 1))%Qc). { apply qdiv_lt_iff; auto. rewrite <- !Nq_mult. apply Nq_lt. nia. }
    assert (B : (Nq i - Nq i * Nq i * Nq (length v) < 0)%Qc). { assert (Nq i < Nq i * Nq i * Nq (length v))%Qc by (rewrite <- !Nq_mult; apply Nq_lt; nia). qlra. }
    set (x := (Nq (i + 1) - Nq i * Nq i / Nq (length v))%Qc). set (y := (Nq i - Nq i * Nq i * Nq (length v))%Qc) in *. assert (XP : (0 < x)%Qc) by (unfold x; qlra).
    assert (YN : (0 < - y)%Qc) by qlra. pose proof (qdiv_lt_0 _ _ XP YN) as Q. assert (E : (x / - y = - (x / y))%Qc). { field. split; intros Z; [rewrite Z in B|rewrite Z in YN]; [exact (Qclt_not_le _ _ B (Qcle_refl _))|exact (Qclt_not_le _ _ YN (Qcle_refl _))]. }
    rewrite E in Q. qlra. }
  destruct (length v - 1) as [|k] eqn:K; [lia|]. cbn [seq map qsum]. pose proof (T 1 (or_introl eq_refl)) as H1.
  assert (R : (qsum (map (fun i => (Nq (inter_size (firstn (i + 1) v) (firstn (i + 1) v)) - Nq i * Nq i / Nq (length v)) / (Nq i - Nq i * Nq i * Nq (length v))) (seq 2 k)) <= 0)%Qc).
  { rewrite <- (Qcmult_0_r (Nq (length (seq 2 k)))), <- qsum_map_const. apply qsum_map_le. intros i I. apply Qclt_le_weak, T. cbn [seq]. now right. }
  cbv zeta. qlra.
Qed.

(** ** Dense ranks *)
Lemma sorted_rank u : StronglySorted Qclt u -> forall i x, nth_error u i = Some x -> length (filter (fun y => qle y x) u) = S i.
Proof.
  induction 1 as [|a u S IH F]; intros i x E; [destruct i; discriminate|]. rewrite Forall_forall in F. destruct i as [|i]; cbn in E.
  - injection E as <-. cbn [filter]. assert (A : qle a a = true) by (apply qle_spec, Qcle_refl). rewrite A. cbn [length]. f_equal.
    destruct (filter (fun y => qle y a) u) as [|b t] eqn:Z; auto. assert (I : In b (filter (fun y => qle y a) u)) by (rewrite Z; now left). apply filter_In in I. destruct I as [I L]. apply qle_spec in L. exfalso. exact (Qclt_not_le _ _ (F b I) L).
  - cbn [filter]. assert (A : qle a x = true) by (apply qle_spec, Qclt_le_weak, F; eapply nth_error_In; eauto). rewrite A. cbn [length]. f_equal. now apply IH.
Qed.
Lemma sorted_index u : StronglySorted Qclt u -> forall a b x y, nth_error u a = Some x -> nth_error u b = Some y -> (a < b <-> (x < y)%Qc).
Proof.
  assert (F : forall u, StronglySorted Qclt u -> forall a b x y, nth_error u a = Some x -> nth_error u b = Some y -> a < b -> (x < y)%Qc).
  { induction 1 as [|z v S IH F]; intros a b x y A B L; [destruct a; discriminate|]. rewrite Forall_forall in F. destruct b as [|b]; [lia|]. cbn in B. destruct a as [|a]; cbn in A.
    - injection A as <-. apply F. eapply nth_error_In; eauto.
    - eapply IH; eauto; lia. }
  intros S a b x y A B. split; [now apply F with (u := u)|]. intros L. destruct (Nat.lt_trichotomy a b) as [?|[E|?]]; auto; exfalso.
  - subst. rewrite A in B. injection B as <-. exact (Qclt_not_le _ _ L (Qcle_refl _)).
  - pose proof (F u S b a y x B A H) as G. exact (Qclt_not_le _ _ L (Qclt_le_weak _ _ G)).
Qed.
Lemma ranks_spec x : dense_ranking x (dense_ranks x).
Proof.
  assert (K : forall i, i < length x -> exists a, nth i (dense_ranks x) 0 = S a /\ nth_error (unique x) a = Some (nth i x 0%Qc)).
  { intros i I. assert (J : In (nth i x 0%Qc) (unique x)) by (apply unique_in, nth_In; auto). apply In_nth_error in J. destruct J as [a A]. exists a. split; auto.
    unfold dense_ranks. rewrite nth_indep with (d' := (fun x0 => length (filter (fun y => qle y x0) (unique x))) 0%Qc) by (rewrite map_length; auto).
    rewrite (map_nth (fun x0 => length (filter (fun y => qle y x0) (unique x)))). now apply sorted_rank; [apply unique_sorted|]. }
  constructor.
  - unfold dense_ranks. apply map_length.
  - intros i j I J. destruct (K i I) as [a [-> A]], (K j J) as [b [-> B]]. rewrite <- (sorted_index _ (unique_sorted x) _ _ _ _ A B). lia.
  - exists (length (unique x)). intros k. split.
    + intros I. apply (In_nth _ _ 0) in I. destruct I as [i [L E]]. unfold dense_ranks in L. rewrite map_length in L. destruct (K i L) as [a [R A]]. rewrite E in R. subst k. assert (a < length (unique x)) by (apply nth_error_Some; congruence). lia.
    + intros [L U]. destruct (nth_error (unique x) (k - 1)) as [q|] eqn:A; [|apply nth_error_None in A; lia]. pose proof (sorted_rank _ (unique_sorted x) _ _ A) as R.
      unfold dense_ranks. apply in_map_iff. exists q. split; [lia|]. apply unique_in. eapply nth_error_In; eauto.
Qed.
Lemma ranking_unique x y r s : same_order x y -> dense_ranking x r -> dense_ranking y s -> r = s.
Proof.
  assert (H : forall x y r s, same_order x y -> dense_ranking x r -> dense_ranking y s -> forall n i, nth i r 0 = n -> i < length x -> nth i r 0 <= nth i s 0).
  { clear. intros x y r s [L O] R S n. destruct R as [RL RO [m RG]], S as [SL SO [m' SG]]. induction n as [n IH] using lt_wf_ind. intros i E I.
    assert (P1 : 1 <= nth i r 0 <= m) by (apply RG, nth_In; lia). assert (P2 : 1 <= nth i s 0 <= m') by (apply SG, nth_In; lia).
    destruct (Nat.eq_dec (nth i r 0) 1); [lia|]. assert (J : In (nth i r 0 - 1) r) by (apply RG; lia). apply (In_nth _ _ 0) in J. destruct J as [j [JL JE]]. rewrite RL in JL.
    pose proof (IH (nth j r 0) ltac:(lia) j eq_refl JL) as Q. assert (A : nth j r 0 < nth i r 0) by lia. apply (RO j i JL I) in A. apply (O j i JL I) in A. apply SO in A; lia. }
  intros SO R S. assert (LR : length r = length x) by apply R. assert (LS : length s = length y) by apply S. destruct SO as [L O]. apply nth_ext with (d := 0) (d' := 0); [lia|].
  intros i I. apply Nat.le_antisymm; [apply (H x y r s (conj L O) R S _ i eq_refl); lia|].
  apply (H y x s r) with (n := nth i s 0); auto; [|lia]. split; auto. intros a b A B. symmetry. apply O; lia.
Qed.
Lemma ranks_order_only x y : same_order x y -> dense_ranks x = dense_ranks y.
Proof. intros S. exact (ranking_unique x y _ _ S (ranks_spec x) (ranks_spec y)). Qed.
Lemma unique_full x : NoDup x -> length (unique x) = length x.
Proof. intros N. apply nodup_same_length; auto; [apply unique_nodup|]. intros q. apply unique_in. Qed.
Lemma ranks_no_ties x : NoDup x -> ranking (length x) (dense_ranks x).
Proof.
  intros N. unfold ranking. assert (L : length (dense_ranks x) = length x) by apply map_length. assert (I : incl (seq 1 (length x)) (dense_ranks x)).
  { intros k K. apply in_seq in K. destruct (nth_error (unique x) (k - 1)) as [q|] eqn:A; [|apply nth_error_None in A; rewrite unique_full in A by auto; lia].
    pose proof (sorted_rank _ (unique_sorted x) _ _ A) as R. apply in_map_iff. exists q. split; [lia|]. apply unique_in. eapply nth_error_In; eauto. }
  apply Permutation_sym. apply NoDup_Permutation_bis; auto; [apply seq_NoDup|]. rewrite seq_length. lia.
Qed.

(** ** The mean over all pairs *)
Lemma pairs_count {A} (l : list A) : 2 * length (pairs l) = length l * (length l - 1).
Proof. induction l as [|a l IH]; auto. cbn [pairs length]. rewrite app_length, map_length. destruct (length l); nia. Qed.
Lemma pairs_in {A} (l : list A) a b : In (a, b) (pairs l) -> In a l /\ In b l.
Proof.
  induction l as [|x l IH]; cbn; [tauto|]. rewrite in_app_iff, in_map_iff. intros [[y [E I]]|I]; [injection E as -> ->; auto|]. destruct (IH I). auto.
Qed.
Lemma pairs_perm {A} (g : A -> A -> Qc) l l' : (forall a b, In a l -> In b l -> g a b = g b a) -> Permutation l l' ->
  qsum (map (fun ab => g (fst ab) (snd ab)) (pairs l)) = qsum (map (fun ab => g (fst ab) (snd ab)) (pairs l')).
Proof.
  intros S P. induction P as [|a l l' P IH|a b l|l1 l2 l3 P1 IH1 P2 IH2]; auto.
  - cbn [pairs]. rewrite !map_app, !qsum_app, !map_map. cbn [fst snd]. rewrite IH by (intros; apply S; now right). f_equal. apply qsum_perm. now apply Permutation_map.
  - cbn [pairs map fst snd app qsum]. rewrite !map_app, !qsum_app, !map_map. cbn [fst snd]. rewrite (S b a) by (cbn; auto). ring.
  - rewrite IH1 by auto. apply IH2. intros a b I J. apply S; [apply (Permutation_in _ (Permutation_sym P1) I)|apply (Permutation_in _ (Permutation_sym P1) J)].
Qed.
Definition gval (m : metric) (v1 v2 : list nat) : Qc := match pairwise_stability m v1 v2 with Ok q => q | Err _ => 0%Qc end.
Lemma gval_ok m v1 v2 : m <> MetricOther -> length v1 = length v2 -> 2 <= length v1 -> pairwise_stability m v1 v2 = Ok (gval m v1 v2).
Proof.
  intros N L L2. unfold gval. destruct m; [| | |contradiction].
  - destruct (jaccard_ok v1 v2) as (q & -> & _); auto. destruct v1; [cbn in L2; lia|discriminate].
  - now rewrite spearman_value.
  - unfold pairwise_stability. destruct (Nat.eqb_spec (length v1) 0); [lia|]. reflexivity.
Qed.
Lemma rank_length x : length (dense_ranks x) = length x. Proof. apply map_length. Qed.
Lemma pairwise_value m imp W : m <> MetricOther -> 2 <= W -> rectangular W imp -> 2 <= length imp ->
  stability_pairwise m imp = Ok (rat 2 * qsum (map (fun ab => gval m (fst ab) (snd ab)) (pairs (map dense_ranks imp))) / (rat (length imp) * (rat (length imp) - 1)))%Qc.
Proof.
  intros NM W2 R L. unfold stability_pairwise. rewrite mapM_pure with (g := fun ab => gval m (fst ab) (snd ab)).
  - cbn [rbind]. destruct (Nat.ltb_spec 1 (length imp)); [|lia]. reflexivity.
  - intros [a b] I. apply pairs_in in I. destruct I as [I J]. apply in_map_iff in I, J. destruct I as [x [<- I]], J as [y [<- J]]. cbn [fst snd]. apply gval_ok; auto; rewrite !rank_length, !R; auto.
Qed.
Lemma pairwise_perm m imp imp' W : m <> MetricOther -> 2 <= W -> rectangular W imp -> 2 <= length imp -> Permutation imp imp' ->
  stability_pairwise m imp = stability_pairwise m imp'.
Proof.
  intros NM W2 R L P. assert (R' : rectangular W imp') by (intros x I; apply R; apply (Permutation_in _ (Permutation_sym P) I)).
  pose proof (Permutation_length P) as LP. rewrite (pairwise_value m imp W), (pairwise_value m imp' W) by (auto; lia). rewrite LP. do 3 f_equal.
  apply pairs_perm; [|now apply Permutation_map]. intros a b I J. unfold gval. rewrite stability_sym; auto. apply in_map_iff in I, J. destruct I as [x [<- I]], J as [y [<- J]].
  now rewrite !rank_length, !R.
Qed.
Lemma pairwise_order_only m imp imp' : Forall2 same_order imp imp' -> stability_pairwise m imp = stability_pairwise m imp'.
Proof.
  intros F. assert (E : map dense_ranks imp = map dense_ranks imp') by (induction F; cbn; f_equal; auto; now apply ranks_order_only).
  assert (L : length imp = length imp') by (clear E; induction F; cbn; auto). unfold stability_pairwise. now rewrite E, L.
Qed.
Lemma pairs_mean {A} (imp : list A) (L : 2 <= length imp) (s : Qc) : (rat 2 * s / (rat (length imp) * (rat (length imp) - 1)) = s / Nq (length (pairs imp)))%Qc.
Proof.
  pose proof (pairs_count imp) as C. assert (E : (Nq (length imp) * (Nq (length imp) - 1) = (1 + 1) * Nq (length (pairs imp)))%Qc).
  { replace (1 + 1)%Qc with (Nq 2) by (apply Qc_is_canon; reflexivity). rewrite <- Nq_mult, C, Nq_mult, Nq_minus by lia. now rewrite Nq_1. }
  change rat with Nq. rewrite E. replace (Nq 2) with (1 + 1)%Qc by (apply Qc_is_canon; reflexivity). field. split; [|discriminate]. apply Nq_neq0. destruct (length imp) as [|[|n]]; lia.
Qed.
Lemma pairs_pos {A} (l : list A) : 2 <= length l -> 0 < length (pairs l).
Proof. intros L. pose proof (pairs_count l). destruct (length l) as [|[|n]]; lia. Qed.
Lemma pairs_map_length {A B} (f : A -> B) l : length (pairs (map f l)) = length (pairs l).
Proof. pose proof (pairs_count l). pose proof (pairs_count (map f l)). rewrite map_length in *. lia. Qed.
Lemma pairwise_mean m imp W (lo hi : Qc) : m <> MetricOther -> 2 <= W -> rectangular W imp -> 2 <= length imp ->
  (forall x y, In x imp -> In y imp -> exists q, pairwise_stability m (dense_ranks x) (dense_ranks y) = Ok q /\ (lo <= q)%Qc /\ (q <= hi)%Qc) ->
  exists q, stability_pairwise m imp = Ok q /\ (lo <= q)%Qc /\ (q <= hi)%Qc.
Proof.
  intros NM W2 R L B. eexists. split; [now apply (pairwise_value m imp W)|]. rewrite pairs_mean by auto.
  pose proof (Nq_pos _ (pairs_pos imp L)) as PP. assert (BB : forall g, In g (map (fun ab => gval m (fst ab) (snd ab)) (pairs (map dense_ranks imp))) -> (lo <= g)%Qc /\ (g <= hi)%Qc).
  { intros g I. apply in_map_iff in I. destruct I as [[a b] [<- I]]. apply pairs_in in I. destruct I as [I J]. apply in_map_iff in I, J. destruct I as [x [<- I]], J as [y [<- J]].
    destruct (B x y I J) as (q & E & A). cbn. unfold gval. now rewrite E. }
  pose proof (qsum_bounds _ lo hi BB) as [S1 S2]. rewrite map_length, pairs_map_length in S1, S2. split; [apply qle_div_iff; auto|apply qdiv_le_iff; auto]; qlra.
Qed.
Lemma pairwise_short m imp : length imp < 2 -> stability_pairwise m imp = Err ZeroDivisionError.
Proof. intros L. destruct imp as [|a [|b t]]; cbn in L; try lia; reflexivity. Qed.

(** ** Stability by frequency *)
Lemma filter_length {A} (p : A -> bool) l : length (filter p l) <= length l.
Proof. induction l as [|a l IH]; cbn; auto. destruct (p a); cbn; lia. Qed.
Section Freq.
Context (order : list Qc -> list nat) (SO : sorts order) (imp : list (list Qc)) (W k : nat).
Context (R : rectangular W imp) (KW : k < W).
Notation idx row := (firstn k (order (map Qcopp row))).
Notation pick row := (filter (fun j => qle 0%Qc (nth j row 0%Qc)) (idx row)).

Lemma order_perm row : In row imp -> Permutation (order (map Qcopp row)) (seq 0 W).
Proof. intros I. destruct (SO (map Qcopp row)) as [P _]. now rewrite map_length, (R _ I) in P. Qed.
Lemma order_length row : In row imp -> length (order (map Qcopp row)) = W.
Proof. intros I. rewrite (Permutation_length (order_perm row I)). apply seq_length. Qed.
Lemma idx_nodup row : In row imp -> NoDup (idx row).
Proof. intros I. apply nodup_firstn. apply (Permutation_NoDup (Permutation_sym (order_perm row I))). apply seq_NoDup. Qed.
Lemma in_firstn {A} n (l : list A) x : In x (firstn n l) -> In x l.
Proof. intros I. rewrite <- (firstn_skipn n l). apply in_app_iff. now left. Qed.
Lemma idx_lt row j : In row imp -> In j (idx row) -> j < W.
Proof. intros I J. apply in_firstn in J. apply (Permutation_in _ (order_perm row I)) in J. apply in_seq in J. lia. Qed.
Lemma idx_length row : In row imp -> length (idx row) = k.
Proof. intros I. apply firstn_length_le. rewrite (order_length row I). lia. Qed.
Lemma pick_spec row j : In j (pick row) <-> selects order k row j.
Proof. rewrite filter_In, qle_spec. reflexivity. Qed.
Lemma best_pick row : In row imp -> best_features order (Z.of_nat k) row = map (fun j => if qle 0%Qc (nth j row 0%Qc) then Z.of_nat j else (-1)%Z) (idx row).
Proof.
  intros I. unfold best_features, slice_len. destruct (Z.ltb_spec (Z.of_nat k) 0); [lia|]. rewrite Nat2Z.id, Nat.min_l; auto. rewrite (R _ I). lia.
Qed.
Lemma filter_map_length {A B} (p : B -> bool) (f : A -> B) l : length (filter p (map f l)) = length (filter (fun a => p (f a)) l).
Proof. induction l as [|a l IH]; cbn; auto. destruct (p (f a)); cbn; auto. Qed.
Lemma filter_filter_length {A} (p q : A -> bool) l : length (filter p (filter q l)) = length (filter (fun a => q a && p a) l).
Proof. induction l as [|a l IH]; cbn; auto. destruct (q a); cbn; auto. destruct (p a); cbn; auto. Qed.
Lemma best_nonneg row : In row imp -> length (filter (Z.leb 0) (best_features order (Z.of_nat k) row)) = length (pick row).
Proof.
  intros I. rewrite (best_pick row I), filter_map_length. f_equal. apply filter_ext. intros j. destruct (qle 0%Qc (nth j row 0%Qc)); [|reflexivity]. apply Z.leb_le. lia.
Qed.
Lemma count_one (l : list nat) j : NoDup l -> length (filter (Nat.eqb j) l) = if existsb (Nat.eqb j) l then 1 else 0.
Proof.
  induction 1 as [|a l N D IH]; cbn; auto. destruct (Nat.eqb_spec j a) as [->|]; cbn; auto. rewrite IH. destruct (existsb (Nat.eqb a) l) eqn:E; auto. now apply existsb_nat in E.
Qed.
Lemma best_count row j : In row imp -> length (filter (Z.eqb (Z.of_nat j)) (best_features order (Z.of_nat k) row)) = if existsb (Nat.eqb j) (pick row) then 1 else 0.
Proof.
  intros I. rewrite (best_pick row I), filter_map_length, <- count_one by (apply NoDup_filter, idx_nodup; auto). rewrite filter_filter_length. f_equal. apply filter_ext. intros a.
  destruct (qle 0%Qc (nth a row 0%Qc)); cbn [andb]; destruct (Nat.eqb_spec j a); destruct (Z.eqb_spec (Z.of_nat j) (if true then Z.of_nat a else 0%Z)); try reflexivity; try lia.
  all: try (apply Z.eqb_neq; lia). all: try (apply Z.eqb_eq; lia).
Qed.
Lemma existsb_pick row j : existsb (Nat.eqb j) (pick row) = existsb (Nat.eqb j) (idx row) && qle 0%Qc (nth j row 0%Qc).
Proof.
  apply eq_true_iff_eq. rewrite existsb_nat, pick_spec, andb_true_iff, existsb_nat, qle_spec. reflexivity.
Qed.
Lemma list_sum_01 {A} (p : A -> bool) l : list_sum (map (fun a => if p a then 1 else 0) l) = length (filter p l).
Proof. induction l as [|a l IH]; cbn; auto. destruct (p a); cbn; auto. Qed.
Lemma count_selecting j : count_where (Z.eqb (Z.of_nat j)) (map (best_features order (Z.of_nat k)) imp) = selecting order k imp j.
Proof.
  unfold count_where, selecting. rewrite map_map, <- list_sum_01. f_equal. apply map_ext_in. intros row I. rewrite best_count by auto. now rewrite existsb_pick.
Qed.
Lemma sum_pick row : In row imp -> list_sum (map (fun j => if existsb (Nat.eqb j) (pick row) then 1 else 0) (seq 0 W)) = length (pick row).
Proof.
  intros I. rewrite list_sum_01. apply nodup_same_length; [apply NoDup_filter, seq_NoDup|apply NoDup_filter, idx_nodup; auto|].
  intros j. rewrite filter_In, existsb_nat, in_seq. split; [tauto|]. intros J. split; auto. split; [lia|]. apply filter_In in J. destruct J as [J _]. now apply idx_lt in J.
Qed.
Lemma list_sum_add {A} (g h : A -> nat) l : list_sum (map (fun a => g a + h a) l) = list_sum (map g l) + list_sum (map h l).
Proof. unfold list_sum. induction l as [|a l IH]; cbn [map fold_right]; auto. rewrite IH. lia. Qed.
Lemma sum_swap {A B} (f : A -> B -> nat) la lb : list_sum (map (fun a => list_sum (map (f a) lb)) la) = list_sum (map (fun b => list_sum (map (fun a => f a b) la)) lb).
Proof.
  induction la as [|a la IH].
  - induction lb as [|b lb IH]; auto.
  - transitivity (list_sum (map (f a) lb) + list_sum (map (fun a => list_sum (map (f a) lb)) la)); [reflexivity|]. rewrite IH, <- list_sum_add. reflexivity.
Qed.
Lemma count_all : count_where (Z.leb 0) (map (best_features order (Z.of_nat k)) imp) = list_sum (map (selecting order k imp) (seq 0 W)).
Proof.
  unfold count_where. rewrite map_map. rewrite (list_sum_ext _ (fun row => list_sum (map (fun j => if existsb (Nat.eqb j) (pick row) then 1 else 0) (seq 0 W)))) by (intros row I; rewrite best_nonneg, sum_pick; auto).
  rewrite (list_sum_ext (selecting order k imp) (fun j => list_sum (map (fun row => if existsb (Nat.eqb j) (pick row) then 1 else 0) imp))).
  2:{ intros j _. unfold selecting. rewrite <- list_sum_01. f_equal. apply map_ext. intros row. now rewrite existsb_pick. }
  apply (sum_swap (fun row j => if existsb (Nat.eqb j) (pick row) then 1 else 0)).
Qed.
Lemma pick_length row : In row imp -> length (pick row) <= k.
Proof. intros I. eapply Nat.le_trans; [apply filter_length|]. rewrite (idx_length row I). lia. Qed.
Lemma selected_bound : list_sum (map (selecting order k imp) (seq 0 W)) <= length imp * k.
Proof.
  rewrite <- count_all. unfold count_where. rewrite map_map. apply list_sum_bound. intros row I. rewrite best_nonneg by auto. now apply pick_length.
Qed.
Lemma selecting_le j : selecting order k imp j <= length imp. Proof. apply filter_length. Qed.
Lemma selecting_none j : W <= j -> selecting order k imp j = 0.
Proof.
  intros H. unfold selecting. destruct (filter _ imp) as [|row l] eqn:E; auto. assert (I : In row (row :: l)) by now left. rewrite <- E in I. apply filter_In in I. destruct I as [I B]. apply andb_true_iff in B. destruct B as [B _]. apply existsb_nat in B. apply idx_lt in B; auto. lia.
Qed.
Lemma selecting_all j : (selecting order k imp j = 0 <-> forall row, In row imp -> ~ selects order k row j) /\ (selecting order k imp j = length imp <-> forall row, In row imp -> selects order k row j).
Proof.
  assert (E : forall row, existsb (Nat.eqb j) (idx row) && qle 0%Qc (nth j row 0%Qc) = true <-> selects order k row j) by (intros row; rewrite andb_true_iff, existsb_nat, qle_spec; reflexivity).
  unfold selecting. split; split.
  - intros Z row I S. apply E in S. destruct (filter _ imp) eqn:Q; [|discriminate]. assert (J : In row (filter (fun row => existsb (Nat.eqb j) (idx row) && qle 0%Qc (nth j row 0%Qc)) imp)) by (apply filter_In; auto). rewrite Q in J. destruct J.
  - intros H. destruct (filter _ imp) as [|row l] eqn:Q; auto. exfalso. assert (J : In row (row :: l)) by now left. rewrite <- Q in J. apply filter_In in J. destruct J as [J B]. apply E in B. exact (H row J B).
  - intros Q row I. apply E. clear R. induction imp as [|r l IH]; [destruct I|]. cbn in Q. destruct (existsb (Nat.eqb j) (idx r) && qle 0%Qc (nth j r 0%Qc)) eqn:B.
    + cbn in Q. destruct I as [<-|I]; auto.
    + exfalso. pose proof (filter_length (fun row => existsb (Nat.eqb j) (idx row) && qle 0%Qc (nth j row 0%Qc)) l). lia.
  - intros H. f_equal. clear R. induction imp as [|r l IH]; auto. cbn. rewrite (proj2 (E r)) by (apply H; now left). f_equal. apply IH. intros row I. apply H. now right.
Qed.
Lemma selecting_agree : (forall j, selecting order k imp j = 0 \/ selecting order k imp j = length imp) <-> (forall r r' j, In r imp -> In r' imp -> (selects order k r j <-> selects order k r' j)).
Proof.
  split.
  - intros H r r' j I I'. destruct (H j) as [Z|Z]; [pose proof (proj1 (proj1 (selecting_all j)) Z) as Y|pose proof (proj1 (proj2 (selecting_all j)) Z) as Y].
    + split; intros S; exfalso; [exact (Y r I S)|exact (Y r' I' S)].
    + split; intros _; auto.
  - intros H j. destruct imp as [|r l] eqn:E; [now left|]. rewrite <- E in *. destruct (existsb (Nat.eqb j) (pick r)) eqn:B.
    + right. apply (proj2 (proj2 (selecting_all j))). intros row I. apply (H r row j); auto; [rewrite E; now left|]. apply pick_spec. now apply existsb_nat.
    + left. apply (proj2 (proj1 (selecting_all j))). intros row I S. apply (H r row j) in S; auto; [|rewrite E; now left]. apply pick_spec, existsb_nat in S. congruence.
Qed.

Lemma xsum_fin {A} (g : A -> Qc) l : xsum (map (fun a => Fin (g a)) l) = Fin (qsum (map g l)).
Proof. induction l as [|a l IH]; cbn [map xsum fold_right qsum]; auto. unfold xsum in IH. rewrite IH. reflexivity. Qed.
Lemma xdiv_fin a b : b <> 0%Qc -> xdiv (Fin a) (Fin b) = Fin (a / b)%Qc.
Proof. intros N. unfold xdiv. destruct (qeq b 0) eqn:E; auto. apply qeq_spec in E. contradiction. Qed.
Lemma xdiv_00 : xdiv (Fin 0) (Fin 0) = NaN. Proof. reflexivity. Qed.
Notation sh := (share order k imp).
Notation d := (mean_selected order k imp W).
Context (N2 : 2 <= length imp).
Lemma NP : (0 < Nq (length imp))%Qc. Proof. apply Nq_pos. lia. Qed.
Lemma NN : Nq (length imp) <> 0%Qc. Proof. apply Nq_neq0. lia. Qed.
Lemma WP : (0 < Nq W)%Qc. Proof. apply Nq_pos. lia. Qed.
Lemma mean_count : (Nq (list_sum (map (selecting order k imp) (seq 0 W))) / Nq (length imp) = d)%Qc.
Proof.
  unfold mean_selected. change total with qsum. rewrite (qsum_map_ext sh (fun j => / Nq (length imp) * Nq (selecting order k imp j))%Qc) by (intros j _; unfold share, Qcdiv; apply Qcmult_comm).
  rewrite qsum_map_scal. unfold Qcdiv. rewrite Qcmult_comm. f_equal. generalize (seq 0 W). intros l. induction l as [|a l IH]; auto. cbn [map qsum]. rewrite list_sum_cons, Nq_plus, IH. reflexivity.
Qed.
Lemma share_range j : (0 <= sh j)%Qc /\ (sh j <= 1)%Qc.
Proof.
  unfold share. change rat with Nq. pose proof NP as P. pose proof (selecting_le j) as L. apply Nq_le in L. split; [apply qdiv_le_0; auto; apply Nq_nonneg|apply qdiv_le_iff; auto; qlra].
Qed.
Lemma mean_range : (0 <= d)%Qc /\ (d < Nq W)%Qc.
Proof.
  rewrite <- mean_count. pose proof NP as P. split; [apply qdiv_le_0; auto; apply Nq_nonneg|]. apply qdiv_lt_iff; auto. rewrite <- Nq_mult. apply Nq_lt. pose proof selected_bound. nia.
Qed.
Lemma mean_zero : d = 0%Qc <-> (forall row j, In row imp -> ~ selects order k row j).
Proof.
  split.
  - intros Z row j I S. assert (Y : sh j = 0%Qc).
    { destruct (Nat.lt_ge_cases j W) as [L|L].
      - apply (qsum_zero (map sh (seq 0 W))); auto; [|apply in_map_iff; exists j; split; auto; apply in_seq; lia]. intros x J. apply in_map_iff in J. destruct J as [i [<- _]]. apply share_range.
      - unfold share. rewrite selecting_none by auto. unfold Qcdiv. apply Qcmult_0_l. }
    unfold share in Y. change rat with Nq in Y. assert (C : Nq (selecting order k imp j) = 0%Qc) by (rewrite <- (qdiv_mult (Nq (selecting order k imp j)) (Nq (length imp)) NN), Y; apply Qcmult_0_l).
    assert (C' : selecting order k imp j = 0) by (apply Nq_inj; exact C). exact (proj1 (proj1 (selecting_all j)) C' row I S).
  - intros H. unfold mean_selected. change total with qsum. rewrite (qsum_map_ext _ (fun _ => 0%Qc)); [rewrite qsum_map_const; ring|]. intros j _. unfold share. rewrite (proj2 (proj1 (selecting_all j))) by (intros row I; apply H; auto). unfold Qcdiv. apply Qcmult_0_l.
Qed.
Notation spread := (disagreement order k imp W).
Lemma n1_neq : (Nq (length imp) - 1 <> 0)%Qc.
Proof. rewrite <- Nq_1, <- Nq_minus by lia. apply Nq_neq0. lia. Qed.
Lemma n1_pos : (0 < Nq (length imp) - 1)%Qc.
Proof. rewrite <- Nq_1, <- Nq_minus by lia. apply Nq_pos. lia. Qed.
Lemma freq_value : stability_freq order imp (Z.of_nat k) =
  Ok (xsub (Fin 1%Qc) (xdiv (Fin (Nq (length imp) * spread / (Nq (length imp) - 1) / Nq W)%Qc) (Fin (d * (1 - d / Nq W) / Nq W)%Qc))).
Proof.
  unfold stability_freq. destruct imp as [|r0 rest] eqn:E; [cbn in N2; lia|]. cbn [nth_res nth_error opt_res rbind]. rewrite <- E in *. assert (L0 : length r0 = W) by (apply R; rewrite E; now left). rewrite L0.
  unfold guard. destruct (Z.ltb_spec (Z.of_nat k) (Z.of_nat W)); [|lia]. cbn [rbind]. destruct (Nat.eqb_spec W 0); [lia|]. cbn [negb rbind]. cbv zeta. rewrite count_all, mean_count.
  rewrite (map_ext _ (fun i => Fin (Nq (length imp) / (Nq (length imp) - 1) * (sh i * (1 - sh i)))%Qc)).
  2:{ intros i. rewrite count_selecting. change (Nq (selecting order k imp i) / Nq (length imp))%Qc with (sh i). rewrite xdiv_fin by apply n1_neq. f_equal. field. apply n1_neq. }
  rewrite xsum_fin, qsum_map_scal. rewrite xdiv_fin by (apply Nq_neq0; lia). do 4 f_equal. unfold disagreement. change total with qsum. field. split; [apply n1_neq|apply Nq_neq0; lia].
Qed.
Lemma spread_nonneg : (0 <= spread)%Qc /\ (spread = 0%Qc <-> forall j, sh j = 0%Qc \/ sh j = 1%Qc).
Proof.
  assert (P : forall j, (0 <= sh j * (1 - sh j))%Qc) by (intros j; destruct (share_range j); qnra). unfold disagreement. change total with qsum. split.
  - apply qsum_nonneg. intros x I. apply in_map_iff in I. destruct I as [j [<- _]]. apply P.
  - split.
    + intros Z j. destruct (Nat.lt_ge_cases j W) as [L|L].
      * assert (Y : (sh j * (1 - sh j) = 0)%Qc). { apply (qsum_zero (map (fun j => sh j * (1 - sh j))%Qc (seq 0 W))); auto; [|apply in_map_iff; exists j; split; auto; apply in_seq; lia]. intros x J. apply in_map_iff in J. destruct J as [i [<- _]]. apply P. }
        apply Qcmult_integral in Y. destruct Y as [Y|Y]; [now left|right; qlra].
      * left. unfold share. rewrite selecting_none by auto. unfold Qcdiv. apply Qcmult_0_l.
    + intros H. rewrite (qsum_map_ext _ (fun _ => 0%Qc)); [rewrite qsum_map_const; ring|]. intros j _. destruct (H j) as [->| ->]; ring.
Qed.
Lemma share_01 j : (sh j = 0%Qc <-> selecting order k imp j = 0) /\ (sh j = 1%Qc <-> selecting order k imp j = length imp).
Proof.
  unfold share. change rat with Nq. pose proof NN as Z. split; split.
  - intros E. apply Nq_inj. rewrite <- (qdiv_mult (Nq (selecting order k imp j)) _ Z), E. apply Qcmult_0_l.
  - intros ->. unfold Qcdiv. apply Qcmult_0_l.
  - intros E. apply Nq_inj. rewrite <- (qdiv_mult (Nq (selecting order k imp j)) _ Z), E. apply Qcmult_1_l.
  - intros ->. unfold Qcdiv. now apply Qcmult_inv_r.
Qed.
Lemma spread_upper : (spread <= d * (1 - d / Nq W))%Qc.
Proof.
  unfold disagreement. change total with qsum. assert (E : (qsum (map (fun j => sh j * (1 - sh j)) (seq 0 W)) = d - qsum (map (fun x => x * x) (map sh (seq 0 W))))%Qc).
  { unfold mean_selected. change total with qsum. rewrite map_map. generalize (seq 0 W). intros l. induction l as [|a l IH]; cbn [map qsum]; [ring|]. rewrite IH. ring. }
  rewrite E. pose proof (sum_sq_dev (map sh (seq 0 W)) (d / Nq W)%Qc) as D. rewrite map_length, seq_length in D. change (qsum (map sh (seq 0 W))) with d in D.
  assert (P : (0 <= qsum (map (fun y => (y - d / Nq W) * (y - d / Nq W)) (map sh (seq 0 W))))%Qc). { apply qsum_nonneg. intros x I. apply in_map_iff in I. destruct I as [y [<- _]]. apply sq_nonneg. }
  rewrite D in P. assert (F : (Nq W * (d / Nq W * (d / Nq W)) = d * (d / Nq W))%Qc) by (field; apply Nq_neq0; lia). rewrite F in P. qlra.
Qed.
Lemma freq_range : exists v, stability_freq order imp (Z.of_nat k) = Ok v /\
  ((forall row j, In row imp -> ~ selects order k row j) -> v = NaN) /\
  ((exists row j, In row imp /\ selects order k row j) -> exists s, v = Fin s /\
     s = (1 - rat (length imp) * spread / (rat (length imp) - 1) / (d * (1 - d / rat W)))%Qc /\
     (- (1) / (rat (length imp) - 1) <= s)%Qc /\ (s <= 1)%Qc /\ (s = 1%Qc <-> forall r r' j, In r imp -> In r' imp -> (selects order k r j <-> selects order k r' j))).
Proof.
  eexists. split; [apply freq_value|]. change rat with Nq. pose proof WP as PW. pose proof n1_pos as P1. pose proof NP as PN. pose proof mean_range as [D0 DW]. pose proof spread_nonneg as [S0 SE]. pose proof spread_upper as SU. split.
  - intros H. apply mean_zero in H. rewrite H in *. assert (SZ : spread = 0%Qc) by (apply Qcle_antisym; auto; qlra). rewrite SZ. replace (Nq (length imp) * 0 / (Nq (length imp) - 1) / Nq W)%Qc with 0%Qc by (unfold Qcdiv; ring).
    replace (0 * (1 - 0 / Nq W) / Nq W)%Qc with 0%Qc by (unfold Qcdiv; ring). reflexivity.
  - intros (row & j & I & S). assert (DP : (0 < d)%Qc). { apply Qcle_lt_or_eq in D0. destruct D0 as [D0|D0]; auto. exfalso. symmetry in D0. exact (proj1 mean_zero D0 row j I S). }
    set (den := (d * (1 - d / Nq W))%Qc) in *. assert (DW' : (d / Nq W < 1)%Qc) by (apply qdiv_lt_iff; auto; qlra). assert (DD : (0 < den)%Qc) by (apply qmult_lt_0; auto; qlra).
    assert (DN : den <> 0%Qc) by (intros Z; rewrite Z in DD; exact (Qclt_not_le _ _ DD (Qcle_refl _))). assert (WN : Nq W <> 0%Qc) by (apply Nq_neq0; lia). pose proof n1_neq as N1.
    rewrite xdiv_fin. 2:{ intros Z. apply DN. rewrite <- (qdiv_mult den (Nq W) WN), Z. apply Qcmult_0_l. }
    set (n := Nq (length imp)) in *. assert (E : (n * spread / (n - 1) / Nq W / (den / Nq W) = n * spread / (n - 1) / den)%Qc) by (field; auto). rewrite E. eexists. split; [reflexivity|]. split; [reflexivity|].
    assert (QQ : (n * spread / (n - 1) / den = n / (n - 1) * (spread / den))%Qc) by (field; auto). rewrite QQ. assert (R0 : (0 <= spread / den)%Qc) by (apply qdiv_le_0; auto). assert (R1 : (spread / den <= 1)%Qc) by (apply qdiv_le_iff; auto; qlra).
    assert (NP1 : (0 < n / (n - 1))%Qc) by (apply qdiv_lt_0; auto). assert (Z1 : (- (1) / (n - 1) = 1 - n / (n - 1))%Qc) by (field; auto). set (q := (n / (n - 1))%Qc) in *. set (t := (spread / den)%Qc) in *.
    rewrite Z1. split; [qnra|]. split; [qnra|]. rewrite <- (selecting_agree). split.
    + intros T i. assert (T' : (q * t = 0)%Qc) by qlra. apply Qcmult_integral in T'. assert (TZ : t = 0%Qc). { destruct T' as [T'|T']; auto. rewrite T' in NP1. exfalso. exact (Qclt_not_le _ _ NP1 (Qcle_refl _)). }
      assert (SZ : spread = 0%Qc) by (rewrite <- (qdiv_mult spread den DN); fold t; rewrite TZ; apply Qcmult_0_l). apply (proj1 SE) with (j := i) in SZ. destruct SZ as [SZ|SZ]; apply share_01 in SZ; auto.
    + intros H. assert (SZ : spread = 0%Qc). { apply SE. intros i. destruct (H i) as [Z|Z]; apply (proj1 (share_01 i)) in Z || apply (proj2 (share_01 i)) in Z; auto. }
      unfold t. rewrite SZ. unfold Qcdiv. ring.
Qed.
End Freq.

(** A negative k counts from the end. *)
Lemma freq_negative order imp W j : rectangular W imp -> 0 < j -> 0 < W -> stability_freq order imp (- Z.of_nat j) = stability_freq order imp (Z.of_nat (W - j)).
Proof.
  intros R J P. assert (B : map (best_features order (- Z.of_nat j)) imp = map (best_features order (Z.of_nat (W - j))) imp).
  { apply map_ext_in. intros r I. unfold best_features, slice_len. rewrite (R _ I). destruct (Z.ltb_spec (- Z.of_nat j) 0); [|lia]. destruct (Z.ltb_spec (Z.of_nat (W - j)) 0); [lia|].
    rewrite Z.opp_involutive, !Nat2Z.id, Nat.min_l by lia. reflexivity. }
  unfold stability_freq. destruct imp as [|r0 rest] eqn:E; [reflexivity|]. rewrite <- E in *. assert (L0 : length r0 = W) by (apply R; rewrite E; now left).
  assert (N0 : nth_res imp 0 = Ok r0) by (rewrite E; reflexivity). rewrite N0. cbn [rbind]. rewrite L0, B. unfold guard.
  destruct (Z.ltb_spec (- Z.of_nat j) (Z.of_nat W)); [|lia]. destruct (Z.ltb_spec (Z.of_nat (W - j)) (Z.of_nat W)); [|lia]. reflexivity.
Qed.
Lemma freq_too_many order imp r0 k : nth_error imp 0 = Some r0 -> (Z.of_nat (length r0) <= k)%Z -> stability_freq order imp k = Err AssertionError.
Proof. intros E K. unfold stability_freq, nth_res. rewrite E. cbn [opt_res rbind]. unfold guard. destruct (Z.ltb_spec k (Z.of_nat (length r0))); [lia|reflexivity]. Qed.
Lemma freq_le_one order (SO : sorts order) imp W k : rectangular W imp -> k < W -> 2 <= length imp -> (exists row j, In row imp /\ selects order k row j) ->
  exists s, stability_freq order imp (Z.of_nat k) = Ok (Fin s) /\ (s <= 1)%Qc /\ ((forall r r' j, In r imp -> In r' imp -> (selects order k r j <-> selects order k r' j)) -> s = 1%Qc).
Proof.
  intros R K N S. destruct (freq_range order SO imp W k R K N) as (v & E & _ & H). destruct (H S) as (s & -> & _ & _ & L & Q). exists s. split; auto. split; auto. apply Q.
Qed.
Lemma rank_one x i : i < length x -> nth i (dense_ranks x) 0 = 1 -> forall j, j < length x -> (nth i x 0 <= nth j x 0)%Qc.
Proof.
  intros I E j J. destruct (ranks_spec x) as [L O [m G]]. destruct (Qclt_le_dec (nth j x 0%Qc) (nth i x 0%Qc)) as [H|H]; auto. apply (O j i J I) in H. assert (Q : 1 <= nth j (dense_ranks x) 0 <= m) by (apply G, nth_In; lia). lia.
Qed.

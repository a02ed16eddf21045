(** What bias_variance_analysis reports. *)
From Coq Require Import List Arith Bool ZArith QArith Qcanon Lia.
From Verif Require Import Base Num Utils Histogram Samples Spec BiasVar NumFacts ListFacts TrustWitness.
Import ListNotations.
Local Open Scope nat_scope.

(** The predictions of the trials for test point j. *)
Definition at_point (preds : list (list Qc)) (j : nat) : list Qc := map (fun r => nth j r 0%Qc) preds.

Lemma mean_sq_shift (l : list Qc) y : l <> [] -> mean (map (fun x => sq (x - y)) l) = (variance l + sq (mean l - y))%Qc.
Proof.
  intros NE. unfold variance. set (m := mean l). assert (NZ : rat (length l) <> 0%Qc) by (apply Nq_neq0; destruct l; [contradiction|cbn; lia]).
  assert (T : total l = (rat (length l) * m)%Qc) by (unfold m, mean; field; auto). unfold mean at 1. rewrite map_length.
  assert (G : forall l0 : list Qc, total (map (fun x => sq (x - y)) l0) = (total (map (fun x => (x - m) * (x - m))%Qc l0) + (m - y) * (z 2 * total l0 - rat (length l0) * (m + y)))%Qc).
  { induction l0 as [|a l0 IH]; cbn [map total length]; [change (rat 0) with 0%Qc; ring|]. rewrite IH. change rat with Nq. rewrite Nq_S. unfold sq. change (z 2) with (1 + 1)%Qc. ring. }
  rewrite G, T. unfold sq. change (z 2) with (1 + 1)%Qc. field. auto.
Qed.

Lemma col_at preds n cols : mapM (col preds) (seq 0 n) = Ok cols -> length cols = n /\ forall j, j < n -> nth j cols [] = at_point preds j.
Proof.
  intros H. pose proof (mapM_length _ _ _ H) as L. rewrite seq_length in L. split; [auto|]. intros j Hj.
  assert (E : nth_error (seq 0 n) j = Some j). { rewrite (nth_error_nth' _ 0) by (now rewrite seq_length). now rewrite seq_nth. }
  destruct (mapM_nth' _ _ _ _ _ H E) as [b [E1 E2]]. rewrite (nth_error_nth _ _ _ E1). clear - E2. unfold col in E2. unfold at_point. revert b E2. induction preds as [|r ps IH]; intros b E2; cbn [mapM map] in *; [injection E2 as <-; reflexivity|].
  apply rbind_ok in E2. destruct E2 as [x [Ex E2]]. apply rbind_ok in E2. destruct E2 as [xs [Exs E2]]. injection E2 as <-. apply nth_res_ok in Ex. rewrite (nth_error_nth _ _ _ Ex). f_equal. auto.
Qed.
Lemma map_combine_nth {A B} (f : A * B -> Qc) (d1 : A) (d2 : B) : forall x y j, j < length x -> j < length y -> nth j (map f (combine x y)) 0%Qc = f (nth j x d1, nth j y d2).
Proof. induction x as [|a x IH]; intros [|b y] [|j] H1 H2; cbn in *; try lia; auto. apply IH; lia. Qed.

Lemma reported preds bayes Y d : bias_variance preds bayes Y = Ok d ->
  length (bv_noise d) = length Y /\ length (bv_bias d) = length Y /\ length (bv_variance d) = length Y /\ length (bv_error d) = length Y /\ preds <> [] /\
  forall j, j < length Y -> let p := at_point preds j in
    nth j (bv_noise d) 0%Qc = sq (nth j bayes 0%Qc - nth j Y 0%Qc) /\
    nth j (bv_bias d) 0%Qc = sq (nth j bayes 0%Qc - mean p) /\
    nth j (bv_variance d) 0%Qc = variance p /\
    nth j (bv_error d) 0%Qc = mean (map (fun x => sq (x - nth j Y 0%Qc)) p).
Proof.
  intros H. unfold bias_variance in H. apply rbind_ok in H. destruct H as [[] [G1 H]]. apply rbind_ok in H. destruct H as [[] [G2 H]]. apply rbind_ok in H. destruct H as [[] [G3 H]]. apply rbind_ok in H. destruct H as [cols [E H]].
  apply guard_ok in G1, G2, G3. apply Nat.eqb_eq in G3. apply negb_true_iff, Nat.eqb_neq in G1. injection H as <-. cbn [bv_noise bv_bias bv_variance bv_error]. destruct (col_at _ _ _ E) as [LC HC].
  do 4 (split; [rewrite map_length, combine_length, ?map_length; lia|]). split; [intros Z; apply G1; now rewrite Z|]. intros j Hj. set (p := at_point preds j).
  rewrite !(map_combine_nth _ 0%Qc 0%Qc), !(map_combine_nth _ [] 0%Qc) by (rewrite ?map_length; lia). cbn [fst snd].
  assert (M : nth j (map qmean cols) 0%Qc = mean p).
  { rewrite (nth_indep _ 0%Qc (qmean [])) by (rewrite map_length; lia). rewrite map_nth, HC by auto. reflexivity. }
  rewrite M, HC by auto. change (at_point preds j) with p. repeat split.
  unfold variance. change qmean with mean. unfold mean at 1. rewrite map_length. f_equal. f_equal. apply map_ext. intros x. unfold sq. ring.
Qed.
Lemma decomposes preds bayes Y d j : bias_variance preds bayes Y = Ok d -> j < length Y ->
  nth j (bv_error d) 0%Qc = (nth j (bv_variance d) 0%Qc + sq (mean (at_point preds j) - nth j Y 0%Qc))%Qc /\
  (nth j (bv_error d) 0%Qc - (nth j (bv_noise d) 0%Qc + nth j (bv_bias d) 0%Qc + nth j (bv_variance d) 0%Qc))%Qc =
  (z 2 * (mean (at_point preds j) - nth j bayes 0%Qc) * (nth j bayes 0%Qc - nth j Y 0%Qc))%Qc.
Proof.
  intros H Hj. destruct (reported _ _ _ _ H) as (_ & _ & _ & _ & NE & R). destruct (R j Hj) as (R1 & R2 & R3 & R4). rewrite R1, R2, R3, R4.
  assert (NP : at_point preds j <> []) by (unfold at_point; destruct preds; [contradiction|discriminate]). rewrite (mean_sq_shift _ (nth j Y 0%Qc) NP). split; [reflexivity|]. unfold sq. change (z 2) with (1 + 1)%Qc. ring.
Qed.
Lemma two_neq : z 2 <> 0%Qc.
Proof. intros Z. apply (f_equal this) in Z. vm_compute in Z. discriminate. Qed.
Lemma decomposes_iff preds bayes Y d j : bias_variance preds bayes Y = Ok d -> j < length Y ->
  (nth j (bv_error d) 0%Qc = (nth j (bv_noise d) 0%Qc + nth j (bv_bias d) 0%Qc + nth j (bv_variance d) 0%Qc)%Qc <->
   nth j bayes 0%Qc = nth j Y 0%Qc \/ nth j bayes 0%Qc = mean (at_point preds j)).
Proof.
  intros H Hj. destruct (decomposes _ _ _ _ _ H Hj) as [_ D]. split.
  - intros E. rewrite E in D. assert (Z : (z 2 * (mean (at_point preds j) - nth j bayes 0%Qc) * (nth j bayes 0%Qc - nth j Y 0%Qc) = 0)%Qc) by (rewrite <- D; ring).
    apply qmult_eq_0 in Z. destruct Z as [Z|Z]; [apply qmult_eq_0 in Z; destruct Z as [Z|Z]; [destruct (two_neq Z)|right; qlra]|left; qlra].
  - intros C. assert (Z : (z 2 * (mean (at_point preds j) - nth j bayes 0%Qc) * (nth j bayes 0%Qc - nth j Y 0%Qc) = 0)%Qc) by (destruct C as [C|C]; rewrite C; ring). rewrite Z in D. qlra.
Qed.
(** Averaged over the test points. *)
Lemma total_sum4 (f1 f2 f3 f4 g : nat -> Qc) l : (forall j, In j l -> (f4 j - (f1 j + f2 j + f3 j))%Qc = g j) ->
  (total (map f4 l) - (total (map f1 l) + total (map f2 l) + total (map f3 l)))%Qc = total (map g l).
Proof.
  induction l as [|j l IH]; intros H; cbn [map total]; [ring|]. rewrite <- IH by (intros; apply H; now right). rewrite <- (H j) by now left. ring.
Qed.
Lemma list_as_nth (l : list Qc) n : length l = n -> l = map (fun j => nth j l 0%Qc) (seq 0 n).
Proof.
  intros <-. apply list_ext. intros i. rewrite nth_error_map. destruct (lt_dec i (length l)) as [H|H].
  - rewrite (nth_error_nth' l 0%Qc H). assert (E : nth_error (seq 0 (length l)) i = Some i).
    { rewrite (nth_error_nth' _ 0) by (now rewrite seq_length). now rewrite seq_nth. } now rewrite E.
  - rewrite (proj2 (nth_error_None l i)) by lia. rewrite (proj2 (nth_error_None (seq 0 (length l)) i)); auto. rewrite seq_length. lia.
Qed.
Lemma averages preds bayes Y d : bias_variance preds bayes Y = Ok d ->
  (mean (bv_error d) - (mean (bv_noise d) + mean (bv_bias d) + mean (bv_variance d)))%Qc =
  mean (map (fun j => (z 2 * (mean (at_point preds j) - nth j bayes 0%Qc) * (nth j bayes 0%Qc - nth j Y 0%Qc))%Qc) (seq 0 (length Y))).
Proof.
  intros H. destruct (reported _ _ _ _ H) as (L1 & L2 & L3 & L4 & _). unfold mean at 1 2 3 4 5. rewrite L1, L2, L3, L4, map_length, seq_length.
  rewrite <- (total_sum4 (fun j => nth j (bv_noise d) 0%Qc) (fun j => nth j (bv_bias d) 0%Qc) (fun j => nth j (bv_variance d) 0%Qc) (fun j => nth j (bv_error d) 0%Qc)).
  - rewrite <- !list_as_nth by auto. unfold Qcdiv. ring.
  - intros j Hj. apply in_seq in Hj. apply (decomposes _ _ _ _ _ H). lia.
Qed.

(** One test point, one trial: the true value is 1, the label 0, the prediction 2. *)
Lemma not_a_decomposition : exists preds bayes Y d, bias_variance preds bayes Y = Ok d /\
  mean (bv_error d) <> (mean (bv_noise d) + mean (bv_bias d) + mean (bv_variance d))%Qc.
Proof.
  exists [[z 2]; [z 2]], [z 1], [z 0]. eexists. split; [reflexivity|]. intros Z. apply (f_equal this) in Z. vm_compute in Z. discriminate.
Qed.

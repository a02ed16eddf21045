(** Theorems about feature importance and its stability (permutation.py). *)
From Coq Require Import List Arith Bool ZArith QArith Qcanon Lia Permutation.
From Verif Require Import Base Num Rng Histogram Utils Criteria Solvers Tree Forest Samples Permutation.
From Verif Require Import Spec TreeSpec ForestSpec PermSpec TreeWitness ForestWitness PermFacts PermLife PermWitness PermMore.
Import ListNotations.
Local Open Scope nat_scope.

(** ** Stability by frequency *)
(** C58 fails when nothing is selected: the result is NaN. *)
Theorem C58_freq_same_selection_refuted : exists order imp k W, sorts order /\ rectangular W imp /\ 2 <= length imp /\ k < W /\
  (forall r r' j, In r imp -> In r' imp -> (selects order k r j <-> selects order k r' j)) /\ stability_freq order imp (Z.of_nat k) = Ok NaN.
Proof. exact freq_nan. Qed.
Print Assumptions C58_freq_same_selection_refuted.
(** Otherwise it holds; C93 adds the converse, the lower bound and the formula. *)
Theorem C93_freq_stability : forall order, sorts order -> forall imp W k, rectangular W imp -> k < W -> 2 <= length imp ->
  exists v, stability_freq order imp (Z.of_nat k) = Ok v /\
  ((forall row j, In row imp -> ~ selects order k row j) -> v = NaN) /\
  ((exists row j, In row imp /\ selects order k row j) -> exists s, v = Fin s /\
     s = (1 - rat (length imp) * disagreement order k imp W / (rat (length imp) - 1) / (mean_selected order k imp W * (1 - mean_selected order k imp W / rat W)))%Qc /\
     (- (1) / (rat (length imp) - 1) <= s)%Qc /\ (s <= 1)%Qc /\
     (s = 1%Qc <-> forall r r' j, In r imp -> In r' imp -> (selects order k r j <-> selects order k r' j))).
Proof. exact freq_range. Qed.
Print Assumptions C93_freq_stability.
Theorem C58_freq_stability_partial : forall order, sorts order -> forall imp W k, rectangular W imp -> k < W -> 2 <= length imp ->
  (exists row j, In row imp /\ selects order k row j) ->
  exists s, stability_freq order imp (Z.of_nat k) = Ok (Fin s) /\ (s <= 1)%Qc /\
  ((forall r r' j, In r imp -> In r' imp -> (selects order k r j <-> selects order k r' j)) -> s = 1%Qc).
Proof. exact freq_le_one. Qed.
Print Assumptions C58_freq_stability_partial.
Theorem C93_freq_too_many : forall order imp r0 k, nth_error imp 0 = Some r0 -> (Z.of_nat (length r0) <= k)%Z -> stability_freq order imp k = Err AssertionError.
Proof. exact freq_too_many. Qed.
Print Assumptions C93_freq_too_many.
Theorem C93_freq_negative : forall order imp W j, rectangular W imp -> 0 < j -> 0 < W -> stability_freq order imp (- Z.of_nat j) = stability_freq order imp (Z.of_nat (W - j)).
Proof. exact freq_negative. Qed.
Print Assumptions C93_freq_negative.
Example C93_hypotheses : sorts argsort0 /\ rectangular 3 I3 /\ 2 <= length I3 /\ (exists row j, In row I3 /\ selects argsort0 1 row j) /\ check (stability_freq argsort0 I3 1%Z) (fun v => xeq v (Fin 0)) = true.
Proof. split; [apply argsort0_sorts|]. apply freq_ex. Qed.

(** ** Pairwise stability *)
Theorem C59_identical_rankings_refuted : exists v, ranking (length v) v /\ 2 <= length v /\
  (forall q, pairwise_stability JACCARD v v = Ok q -> q <> 1%Qc) /\ (forall q, pairwise_stability KUNCHEVA v v = Ok q -> (q < 0)%Qc).
Proof. exact identical_not_one. Qed.
Print Assumptions C59_identical_rankings_refuted.
Theorem C59_symmetric_partial : forall m v1 v2, length v1 = length v2 -> pairwise_stability m v1 v2 = pairwise_stability m v2 v1.
Proof. exact stability_sym. Qed.
Print Assumptions C59_symmetric_partial.
Theorem C59_spearman_partial : forall n v1 v2, 2 <= n -> ranking n v1 -> ranking n v2 ->
  exists q, pairwise_stability SPEARMAN v1 v2 = Ok q /\ (- (1) <= q)%Qc /\ (q <= 1)%Qc /\ (q = 1%Qc <-> v1 = v2).
Proof. exact spearman_rankings. Qed.
Print Assumptions C59_spearman_partial.
(** With ties the first feature is ignored. *)
Theorem C94_spearman : forall v1 v2, length v1 = length v2 -> 2 <= length v1 ->
  exists q, pairwise_stability SPEARMAN v1 v2 = Ok q /\ (q <= 1)%Qc /\ (q = 1%Qc <-> tl v1 = tl v2).
Proof. exact spearman_le. Qed.
Print Assumptions C94_spearman.
Theorem C94_jaccard : forall v1 v2, v1 <> [] -> exists q, pairwise_stability JACCARD v1 v2 = Ok q /\ (0 <= q)%Qc /\ (q <= (rat (length v1) - 1) / rat (length v1))%Qc.
Proof. exact jaccard_ok. Qed.
Print Assumptions C94_jaccard.
Theorem C94_jaccard_identical : forall v, v <> [] -> pairwise_stability JACCARD v v = Ok ((rat (length v) - 1) / rat (length v))%Qc.
Proof. exact jaccard_self. Qed.
Print Assumptions C94_jaccard_identical.
Theorem C94_kuncheva_identical : forall v, NoDup v -> 2 <= length v -> exists q, pairwise_stability KUNCHEVA v v = Ok q /\ (q < 0)%Qc.
Proof. exact kuncheva_self. Qed.
Print Assumptions C94_kuncheva_identical.
Theorem C94_spearman_value : forall v1 v2, length v1 = length v2 -> 2 <= length v1 ->
  pairwise_stability SPEARMAN v1 v2 = Ok (1 - rat 6 * rank_distance v1 v2 / (rat (length v1) * (rat (length v1) * rat (length v1) - 1)))%Qc.
Proof. exact spearman_value. Qed.
Print Assumptions C94_spearman_value.
Theorem C94_jaccard_value : forall v1 v2, v1 <> [] -> exists I U, (forall i, card (in_both v1 v2 (i + 1)) (I i) /\ card (in_either v1 v2 (i + 1)) (U i)) /\
  pairwise_stability JACCARD v1 v2 = Ok (total (map (fun i => rat (I i) / rat (U i))%Qc (seq 1 (length v1 - 1))) / rat (length v1))%Qc.
Proof. exact jaccard_value. Qed.
Print Assumptions C94_jaccard_value.
Theorem C94_kuncheva_value : forall v1 v2, v1 <> [] -> exists I, (forall i, card (in_both v1 v2 (i + 1)) (I i)) /\
  pairwise_stability KUNCHEVA v1 v2 = Ok (total (map (fun i => (rat (I i) - rat i * rat i / rat (length v1)) / (rat i - rat i * rat i * rat (length v1)))%Qc (seq 1 (length v1 - 1))) / rat (length v1))%Qc.
Proof. exact kuncheva_value. Qed.
Print Assumptions C94_kuncheva_value.
(** The number of elements is determined. *)
Theorem C94_card_unique : forall A n m, card A n -> card A m -> n = m.
Proof. exact card_unique. Qed.
Print Assumptions C94_card_unique.
Example C94_ex : check (pairwise_stability JACCARD [1; 2; 3] [2; 1; 3]) (qeq (frac 2 3)) = true /\ check (pairwise_stability SPEARMAN [1; 2; 3] [3; 2; 1]) (qeq 0%Qc) = true /\ ranking 3 [3; 2; 1].
Proof. split; [vm_compute; reflexivity|]. split; [vm_compute; reflexivity|]. exact (Permutation_sym (Permutation_rev [1; 2; 3])). Qed.

(** ** Ranks *)
Theorem C95_dense_ranks : forall x, dense_ranking x (dense_ranks x).
Proof. exact ranks_spec. Qed.
Print Assumptions C95_dense_ranks.
Theorem C95_ranks_without_ties : forall x, NoDup x -> ranking (length x) (dense_ranks x).
Proof. exact ranks_no_ties. Qed.
Print Assumptions C95_ranks_without_ties.
(** The comment in the code says that rank 1 is the most important feature. *)
Theorem C95_rank_one_is_least : forall x i, i < length x -> nth i (dense_ranks x) 0 = 1 -> forall j, j < length x -> (nth i x 0 <= nth j x 0)%Qc.
Proof. exact rank_one. Qed.
Print Assumptions C95_rank_one_is_least.
Theorem C95_order_only : forall m imp imp', Forall2 same_order imp imp' -> stability_pairwise m imp = stability_pairwise m imp'.
Proof. exact pairwise_order_only. Qed.
Print Assumptions C95_order_only.
Example C95_ex : dense_ranks [z 3; z 1; z 3; z (-2)] = [3; 2; 3; 1] /\ same_order [z 3; z 1] [z 7; z (-7)].
Proof.
  split; [vm_compute; reflexivity|]. split; [reflexivity|]. intros i j I J. cbn in I, J.
  destruct i as [|[|i]]; [| |lia]; (destruct j as [|[|j]]; [| |lia]); rewrite <- !NumFacts.qlt_spec; vm_compute; tauto.
Qed.

(** ** Averages over all pairs of forests *)
Theorem C96_forest_order : forall m imp imp' W, m <> MetricOther -> 2 <= W -> rectangular W imp -> 2 <= length imp -> Permutation imp imp' ->
  stability_pairwise m imp = stability_pairwise m imp'.
Proof. exact pairwise_perm. Qed.
Print Assumptions C96_forest_order.
Theorem C96_mean_of_pairs : forall m imp W lo hi, m <> MetricOther -> 2 <= W -> rectangular W imp -> 2 <= length imp ->
  (forall x y, In x imp -> In y imp -> exists q, pairwise_stability m (dense_ranks x) (dense_ranks y) = Ok q /\ (lo <= q)%Qc /\ (q <= hi)%Qc) ->
  exists q, stability_pairwise m imp = Ok q /\ (lo <= q)%Qc /\ (q <= hi)%Qc.
Proof. exact pairwise_mean. Qed.
Print Assumptions C96_mean_of_pairs.
Theorem C96_average : forall m imp W, m <> MetricOther -> 2 <= W -> rectangular W imp -> 2 <= length imp ->
  exists s, (forall i j, i < length imp -> j < length imp -> pairwise_stability m (dense_ranks (nth i imp [])) (dense_ranks (nth j imp [])) = Ok (s i j)) /\
    stability_pairwise m imp = Ok (rat 2 * total (map (fun i => total (map (s i) (seq (S i) (length imp - S i)))) (seq 0 (length imp))) / (rat (length imp) * (rat (length imp) - 1)))%Qc.
Proof. exact pairwise_average. Qed.
Print Assumptions C96_average.
Theorem C96_one_forest : forall m imp, length imp < 2 -> stability_pairwise m imp = Err ZeroDivisionError.
Proof. exact pairwise_short. Qed.
Print Assumptions C96_one_forest.
Example C96_ex : rectangular 3 I3 /\ 2 <= length I3 /\ check (stability_pairwise SPEARMAN I3) (qeq (frac 5 6)) = true.
Proof. split; [apply freq_ex|]. split; [apply freq_ex|]. vm_compute. reflexivity. Qed.

(** ** The importance array *)
Theorem C97_array_rows : forall M P c s h e rows s' h' e', pc_score c = IImpurity -> perm_reach M P c s -> get_importance_array M P c s h e = Ok (rows, s', h', e') ->
  length rows = length (ps_forests s) + pc_forests c /\
  Forall2 (fun f row => exists arr, row = map xopp arr /\ importance (pc_data c) arr f) (ps_forests s') rows /\
  Forall (Forall (fun v => xle (Fin 0) v = true)) rows.
Proof. exact array_ok. Qed.
Print Assumptions C97_array_rows.
Theorem C97_vector_needs_training : forall c s i h, ps_train s = false -> compute_importance_vec c s i h = Err AssertionError.
Proof. exact untrained_vec. Qed.
Print Assumptions C97_vector_needs_training.
Theorem C98_array_again : forall M P c s h e rows s' h' e' hh ee rows2 s2 h2 e2, pc_score c = IImpurity -> perm_reach M P c s ->
  get_importance_array M P c s h e = Ok (rows, s', h', e') -> get_importance_array M P c s' hh ee = Ok (rows2, s2, h2, e2) ->
  exists new, rows2 = rows ++ new /\ length new = pc_forests c.
Proof. exact array_again. Qed.
Print Assumptions C98_array_again.
Theorem C99_array_reproducible : forall M P c seed h e e' s e0 rows s1 h1 e1, coming e e' -> perm_new P c seed e = Ok (s, e0) ->
  get_importance_array M P c s h e0 = Ok (rows, s1, h1, e1) ->
  exists e0' e1', perm_new P c seed e' = Ok (s, e0') /\ get_importance_array M P c s h e0' = Ok (rows, s1, h1, e1').
Proof. exact perm_repro. Qed.
Print Assumptions C99_array_reproducible.
Theorem C100_array_keeps_labels : forall M P c s h e rows s1 h1 e1, get_importance_array M P c s h e = Ok (rows, s1, h1, e1) ->
  forall r, r < length h -> nth_error h1 r = nth_error h r.
Proof. exact array_labels. Qed.
Print Assumptions C100_array_keeps_labels.
Example C97_runs : exists s rows s1 h1 e1, perm_reach M0 P1 (pc0 true IImpurity) s /\ get_importance_array M0 P1 (pc0 true IImpurity) s (heap_of Y6) env0 = Ok (rows, s1, h1, e1) /\
  exists row v, nth_error rows 0 = Some row /\ nth_error row 0 = Some v /\ xlt (Fin 0) v = true /\ perm_reach M0 P1 (pc0 true IImpurity) s1 /\
  exists rows2 s2 h2 e2, get_importance_array M0 P1 (pc0 true IImpurity) s1 h1 e1 = Ok (rows2, s2, h2, e2) /\ length rows2 = 4.
Proof. exact prun_reach. Qed.

(** ** Permutation scores *)
Theorem C101_shuffle : forall W data f gen, rectangular W data -> f < W -> let d := fst (shuffle_column data f gen) in
  rectangular W d /\ length d = length data /\ Permutation (feature_values f d) (feature_values f data) /\ forall g, g <> f -> feature_values g d = feature_values g data.
Proof. exact shuffle_spec. Qed.
Print Assumptions C101_shuffle.
Theorem C102_constant_column_refuted : exists P M c seed h e s e0 rows s1 h1 e1 j row,
  pc_score c = IPermutation /\ perm_new P c seed e = Ok (s, e0) /\ get_importance_array M P c s h e0 = Ok (rows, s1, h1, e1) /\
  (forall x y, In x (feature_values j (pc_data c)) -> In y (feature_values j (pc_data c)) -> x = y) /\
  nth_error rows 0 = Some row /\ nth_error row j = Some (Fin (z 5)).
Proof. exact constant_column_scored. Qed.
Print Assumptions C102_constant_column_refuted.
(** Shuffling such a column changes nothing, so the two scores compared are those of the
    original table: one is a number of rows, the other a fraction. *)
Theorem C102_constant_column_partial : forall W data f gen v, rectangular W data -> f < W -> (forall x, In x (feature_values f data) -> x = v) ->
  fst (shuffle_column data f gen) = data.
Proof. exact shuffle_constant. Qed.
Print Assumptions C102_constant_column_partial.

(** ** The forests behind an importance array *)
Theorem C126_accepted : forall P c seed e, (exists s e', perm_new P c seed e = Ok (s, e')) <-> 2 <= pc_forests c.
Proof. exact perm_accepts. Qed.
Print Assumptions C126_accepted.
Theorem C126_new_object : forall P c seed e s e', perm_new P c seed e = Ok (s, e') -> ps_forests s = [] /\ ps_gen s = seed_gen P seed.
Proof. exact perm_start. Qed.
Print Assumptions C126_new_object.
Theorem C126_forests_of_array : forall M P c s h e rows s' h' e', pc_score c = IImpurity -> perm_reach M P c s -> get_importance_array M P c s h e = Ok (rows, s', h', e') ->
  exists fs, map f_trees (ps_forests s') = map f_trees (ps_forests s ++ fs) /\
    Forall2 (fun seed f => exists fc h e f0 e0 h1 e1, importance_settings c fc /\ fc_seed fc = seed /\
      forest_new P fc (Some (pc_data c)) (Some (pc_labels c)) None (pc_budget c) h e = Ok (f0, e0) /\ forest_fit M P fc f0 (None, None) h e0 = Ok (f, h1, e1))
      (draws (pc_forests c) (ps_gen s)) fs.
Proof. exact array_forests. Qed.
Print Assumptions C126_forests_of_array.
Theorem C127_permutation_scores : forall c s i h vec s' W, pc_score c = IPermutation -> rectangular W (pc_data c) -> compute_importance_vec c s i h = Ok (vec, s') ->
  exists fc f la ps f1 hits, importance_settings c fc /\ nth_error (ps_forests s) i = Some f /\ nth_error h (pc_labels c) = Some la /\ forest_predict_batch fc f (pc_data c) = Ok (ps, f1) /\
    hits_spec (pc_class c) ps (la_vals la) hits /\ length vec = W /\
    forall j v, nth_error vec j = Some v -> exists d g sc g', column_shuffled W (pc_data c) d j /\ used fc h f g /\ get_oob_score fc g h (Some d) = Ok (sc, g') /\ v = distance (Fin (rat hits)) sc.
Proof. exact permutation_scores. Qed.
Print Assumptions C127_permutation_scores.
Example C127_hypotheses : exists s rows s1 h1 e1, perm_new P1 (pc0 true IPermutation) 4 env0 = Ok (s, set_seed P1 4 env0) /\ get_importance_array M0 P1 (pc0 true IPermutation) s (heap_of Y6) (set_seed P1 4 env0) = Ok (rows, s1, h1, e1) /\
  rectangular 3 (pc_data (pc0 true IPermutation)) /\ exists vec s2, compute_importance_vec (pc0 true IPermutation) s1 0 h1 = Ok (vec, s2) /\ length vec = 3.
Proof. exact perm_vec_ex. Qed.
Theorem C128_baseline : forall order M P c k s h e v s' h' e', run_baseline order M P c s k h e = Ok (v, s', h', e') ->
  exists rows imp, get_importance_array M P c s h e = Ok (rows, s', h', e') /\ rows = map (map Fin) imp /\
    match k with None => exists q, v = Fin q /\ stability_pairwise (pc_metric c) imp = Ok q | Some k => stability_freq order imp k = Ok v end.
Proof. intros order M P c. exact (baseline_value M P c order). Qed.
Print Assumptions C128_baseline.
Example C128_runs :
  check (run_baseline argsort0 M0 P1 (pc0 true IImpurity) {| ps_gen := seed_gen P1 4; ps_forests := []; ps_train := false |} None (heap_of Y6) (set_seed P1 4 env0)) (fun r => match fst (fst (fst r)) with Fin q => qlt 0 q | _ => false end) = true /\
  check (run_baseline argsort0 M0 P1 (pc0 true IImpurity) {| ps_gen := seed_gen P1 4; ps_forests := []; ps_train := false |} (Some 1%Z) (heap_of Y6) (set_seed P1 4 env0)) (fun _ => true) = true.
Proof. exact baseline_ex. Qed.

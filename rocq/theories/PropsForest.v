(** Properties of forests (C38-C51, C78-C90, C111, C112, C121-C125, C133).  The vocabulary ([used], [votes], [fit_data],
    [grown], [importance], ...) is in ForestSpec.v. *)
From Coq Require Import List Arith Bool ZArith QArith Qcanon Lia Permutation Sorting.
From Verif Require Import Base Num Rng Histogram Utils Criteria Solvers Tree Forest Samples Spec SolverSpec TreeSpec ForestSpec NumFacts TreeTotal TreeWitness Repro ForestFacts ForestThms ForestDraws ForestMore ForestTotal ForestOob ForestMdi ForestLife ForestRepro ForestRun ForestRound ForestWitness.
Import ListNotations.
Local Open Scope nat_scope.

(** ** Prediction *)
Theorem C38_forest_probabilities : forall M P c f0 arg h0 e0 f1 h1 e1 f, forest_fit M P c f0 arg h0 e0 = Ok (f1, h1, e1) -> used c h1 f1 f ->
  forall data, fit_data f0 arg = Some data -> some_rows c (length data) ->
  forall x l avg f', fc_class c = true -> good_classes (f_classes f0) -> f_ncl f0 = length (f_classes f0) -> forest_predict c f x = Ok (FClass l avg, f') ->
  exists ps, votes f x ps /\ ps <> [] /\ length avg = length (f_classes f0) /\
    (forall j, j < length avg -> nth_error avg j = Some (mean (map (fun p => prob_of p j) ps))) /\
    (forall q, In q avg -> (0 <= q)%Qc /\ (q <= 1)%Qc) /\ total avg = 1%Qc /\
    (exists i q, nth_error (map fst (f_classes f0)) i = Some l /\ nth_error avg i = Some q /\ (forall q', In q' avg -> (q' <= q)%Qc)).
Proof. exact forest_probabilities. Qed.
Print Assumptions C38_forest_probabilities.
Theorem C38_label_most_likely_refuted : exists P M c X h cls e f0 e0 f h1 e1 x l avg f' i q q',
  forest_new P c (Some X) (Some 0) (Some cls) None h e = Ok (f0, e0) /\ forest_fit M P c f0 (None, None) h e0 = Ok (f, h1, e1) /\
  good_classes cls /\ forest_predict c f x = Ok (FClass l avg, f') /\ In (l, i) cls /\ nth_error avg i = Some q /\ In q' avg /\ (q < q')%Qc.
Proof. exact label_not_likely. Qed.
Print Assumptions C38_label_most_likely_refuted.
(** A forest that derives its classes from its labels. *)
Theorem C78_classes_from_labels : forall P c data r budget h e f e1, fc_class c = true -> forest_new P c data (Some r) None budget h e = Ok (f, e1) ->
  exists la, nth_error h r = Some la /\ good_classes (f_classes f) /\ in_order (f_classes f) /\ f_ncl f = length (f_classes f) /\
    forall y, In y (map fst (f_classes f)) <-> In y (la_vals la).
Proof. exact new_classes. Qed.
Print Assumptions C78_classes_from_labels.
(** A forest that is given its classes. *)
Theorem C78_classes_given : forall P c data labels d budget h e f e', fc_class c = true -> forest_new P c data labels (Some d) budget h e = Ok (f, e') ->
  f_classes f = d /\ f_ncl f = length d.
Proof. exact classes_given. Qed.
Print Assumptions C78_classes_given.
Theorem C78_label_most_likely : forall M P c f0 arg h0 e0 f1 h1 e1 f, forest_fit M P c f0 arg h0 e0 = Ok (f1, h1, e1) -> used c h1 f1 f ->
  forall data, fit_data f0 arg = Some data -> some_rows c (length data) ->
  forall x l avg f', fc_class c = true -> good_classes (f_classes f0) -> in_order (f_classes f0) -> f_ncl f0 = length (f_classes f0) -> forest_predict c f x = Ok (FClass l avg, f') ->
  exists i q, In (l, i) (f_classes f0) /\ nth_error avg i = Some q /\ (forall q', In q' avg -> (q' <= q)%Qc).
Proof. exact forest_label. Qed.
Print Assumptions C78_label_most_likely.
Example C38_hypotheses : some_rows fc_cl (length X6) /\ exists la, nth_error (heap_of Y6) 0 = Some la /\ good_classes (f_classes (fst (start P1 fc_cl Y6))) /\ in_order (f_classes (fst (start P1 fc_cl Y6))).
Proof.
  split; [apply some_rows_ex|]. destruct (new_classes P1 fc_cl (Some X6) 0 None (heap_of Y6) env0 (fst (start P1 fc_cl Y6)) (snd (start P1 fc_cl Y6)) eq_refl eq_refl) as (la & A & B & C & _). exists la. auto.
Qed.
Example C38_run : check (frun P1 fc_cl X6 (heap_of Y6) None None) (fun r => several (fst (fst r)) && check (forest_predict fc_cl (fst (fst r)) [z 3; z 10]) (fun p => match fst p with FClass l [a; b] => qlt 0 a && qlt 0 b | _ => false end)) = true.
Proof. exact (proj1 runs_ex). Qed.

Theorem C39_forest_mean : forall M P c f0 arg h0 e0 f1 h1 e1 f, forest_fit M P c f0 arg h0 e0 = Ok (f1, h1, e1) -> used c h1 f1 f ->
  forall data, fit_data f0 arg = Some data -> some_rows c (length data) ->
  forall x v f', fc_class c = false -> fc_boosting c = false -> forest_predict c f x = Ok (FReg v, f') ->
  exists ps, votes f x ps /\ ps <> [] /\ v = mean (map value_of ps) /\
    (forall L lo hi, fit_labels c f0 arg h0 = Some L -> length L = length data -> (forall y, In y L -> (lo <= y)%Qc /\ (y <= hi)%Qc) -> (lo <= v)%Qc /\ (v <= hi)%Qc).
Proof. exact forest_mean. Qed.
Print Assumptions C39_forest_mean.
Example C39_hypotheses : some_rows fc_re (length X6) /\ fit_labels fc_re (fst (start P1 fc_re T6)) (None, None) (heap_of T6) = Some T6 /\ length T6 = length X6.
Proof. split; [apply some_rows_ex|]. split; reflexivity. Qed.
Example C39_run : check (frun P1 fc_re X6 (heap_of T6) None None) (fun r => several (fst (fst r)) && check (forest_predict fc_re (fst (fst r)) [z 3; z 10]) (fun p => match fst p with FReg v => true | _ => false end)) = true.
Proof. exact (proj1 (proj2 runs_ex)). Qed.

Theorem C40_order_irrelevant : forall c f ts x p f', fc_boosting c = false -> Permutation (f_trees f) ts -> forest_predict c f x = Ok (p, f') ->
  exists f2, forest_predict c (set_trees f ts) x = Ok (p, f2).
Proof. exact order_irrelevant. Qed.
Print Assumptions C40_order_irrelevant.

Theorem C41_batch_pointwise : forall M P c f0 arg h0 e0 f1 h1 e1 f, forest_fit M P c f0 arg h0 e0 = Ok (f1, h1, e1) -> used c h1 f1 f ->
  forall data, fit_data f0 arg = Some data -> some_rows c (length data) ->
  forall xs, answer (forest_predict_batch c f xs) = mapM (fun x => answer (forest_predict c f x)) xs.
Proof. exact forest_batch_pointwise. Qed.
Print Assumptions C41_batch_pointwise.
Theorem C79_predictions_do_not_interfere : forall M P c f0 arg h0 e0 f1 h1 e1 f, forest_fit M P c f0 arg h0 e0 = Ok (f1, h1, e1) -> used c h1 f1 f ->
  forall data, fit_data f0 arg = Some data -> some_rows c (length data) ->
  forall x, answer (forest_predict c f x) = answer (forest_predict c f1 x).
Proof. exact forest_memoryless. Qed.
Print Assumptions C79_predictions_do_not_interfere.
Theorem C79_predict_answers : forall M P c f0 arg h0 e0 f1 h1 e1 f, forest_fit M P c f0 arg h0 e0 = Ok (f1, h1, e1) -> used c h1 f1 f ->
  forall data, fit_data f0 arg = Some data -> some_rows c (length data) ->
  forall x, (forall r0, nth_error data 0 = Some r0 -> length r0 <= length x) ->
  (fc_class c = true -> good_classes (f_classes f0) /\ f_classes f0 <> [] /\ f_ncl f0 = length (f_classes f0)) ->
  (fc_class c = false -> fc_boosting c = true -> fc_lr c <> None /\ f_trees f <> []) ->
  exists p f', forest_predict c f x = Ok (p, f').
Proof. exact forest_answers. Qed.
Print Assumptions C79_predict_answers.
Example C79_hypotheses : forall r0, nth_error X6 0 = Some r0 -> length r0 <= length [z 3; z 10].
Proof. intros r0 E. injection E as <-. cbn. lia. Qed.

(** ** Boosting and the caller's labels *)
Theorem C42_boosting_residual : forall M P c f0 arg h0 e0 f1 h1 e1 f data r ys i v f',
  forest_fit M P c f0 arg h0 e0 = Ok (f1, h1, e1) -> used c h1 f1 f -> fit_data f0 arg = Some data -> all_rows c -> fc_class c = false -> fc_boosting c = true ->
  boost_ref f0 arg = Some r -> nth_error h0 r = Some {| la_int := false; la_vals := ys |} -> i < length data ->
  forest_predict c f (nth i data []) = Ok (FReg v, f') ->
  exists ys', nth_error h1 r = Some {| la_int := false; la_vals := ys' |} /\ length ys' = length ys /\ (nth i ys' 0 + v)%Qc = nth i ys 0%Qc.
Proof. exact boosting_residual. Qed.
Print Assumptions C42_boosting_residual.
Example C42_hypotheses : all_rows fc_bo /\ fc_boosting fc_bo = true /\ boost_ref (fst (start P1 fc_bo T6)) (None, None) = Some 0 /\ nth_error (heap_of T6) 0 = Some {| la_int := false; la_vals := T6 |}.
Proof. split; [apply some_rows_ex|]. repeat split. Qed.
Example C42_run : check (frun P1 fc_bo X6 (heap_of T6) None None) (fun r => (length (f_trees (fst (fst r))) =? 3) && check (forest_predict fc_bo (fst (fst r)) [z 3; z 10]) (fun p => match fst p with FReg v => true | _ => false end)) = true.
Proof. exact (proj1 (proj2 (proj2 runs_ex))). Qed.
Theorem C88_boosted_prediction : forall c f x v f', fc_class c = false -> fc_boosting c = true -> forest_predict c f x = Ok (FReg v, f') ->
  exists ps lr, votes f x ps /\ ps <> [] /\ fc_lr c = Some lr /\ v = boosted lr (map value_of ps).
Proof. exact forest_boosted. Qed.
Print Assumptions C88_boosted_prediction.

Theorem C43_labels_untouched_partial : forall M P c f0 arg h0 e0 f1 h1 e1, forest_fit M P c f0 arg h0 e0 = Ok (f1, h1, e1) ->
  (fc_boosting c = false \/ fc_class c = true -> forall r, r < length h0 -> nth_error h1 r = nth_error h0 r) /\
  (forall r, r < length h0 -> boost_ref f0 arg <> Some r -> nth_error h1 r = nth_error h0 r).
Proof. exact labels_untouched. Qed.
Print Assumptions C43_labels_untouched_partial.
Theorem C89_only_boosting_touches_labels : forall M P c f0 arg h0 e0 f1 h1 e1, forest_fit M P c f0 arg h0 e0 = Ok (f1, h1, e1) ->
  forall r, r < length h0 -> nth_error h1 r <> nth_error h0 r -> fc_boosting c = true /\ fc_class c = false /\ boost_ref f0 arg = Some r.
Proof. exact only_boosting. Qed.
Print Assumptions C89_only_boosting_touches_labels.
Theorem C43_labels_untouched_refuted : exists P M c X h e f0 e0 f h1 e1,
  forest_new P c (Some X) (Some 0) None None h e = Ok (f0, e0) /\ forest_fit M P c f0 (None, None) h e0 = Ok (f, h1, e1) /\ nth_error h1 0 <> nth_error h 0.
Proof. exact labels_overwritten. Qed.
Print Assumptions C43_labels_untouched_refuted.

(** ** Budget *)
Theorem C44_forest_budget : forall M P c f0 arg h0 e0 f1 h1 e1 b, forest_fit M P c f0 arg h0 e0 = Ok (f1, h1, e1) -> f_budget f0 = Some b ->
  let q := list_sum (map (fun ct => t_queries (snd ct)) (f_trees f1)) in
  f_queries f1 = f_queries f0 + q /\ f_budget f1 = Some (b - Z.of_nat q)%Z /\ length (f_trees f1) <= fc_n c /\
  (forall ct, In ct (f_trees f1) -> 1 <= t_queries (snd ct)) /\ (f_trees f1 <> [] -> (Z.of_nat q < b + 1000000)%Z).
Proof. exact forest_budget. Qed.
Print Assumptions C44_forest_budget.
(** Removing the assertion from the loop changes nothing, so it never fires. *)
Theorem C44_assertion_never_fires : forall M P c data F s i, fit_tree M P c data F s i = fit_tree_unasserted M P c data F s i.
Proof. exact assertion_redundant. Qed.
Print Assumptions C44_assertion_never_fires.
Theorem C90_all_trees_without_budget : forall M P c f0 arg h0 e0 f1 h1 e1, forest_fit M P c f0 arg h0 e0 = Ok (f1, h1, e1) -> f_budget f0 = None ->
  length (f_trees f1) = fc_n c /\ f_budget f1 = None /\ f_queries f1 = f_queries f0 + list_sum (map (fun ct => t_queries (snd ct)) (f_trees f1)).
Proof. exact forest_no_budget. Qed.
Print Assumptions C90_all_trees_without_budget.
Example C44_run : check (frun P1 fc_re X6 (heap_of T6) None (Some 15%Z)) (fun r => (length (f_trees (fst (fst r))) =? 1) && (match f_budget (fst (fst r)) with Some b => (b <? 15)%Z | None => false end)) = true.
Proof. exact (proj2 (proj2 (proj2 runs_ex))). Qed.

(** ** Out-of-bag *)
Theorem C45_out_of_bag_rows : forall M P c f0 arg h0 e0 f1 h1 e1 data, forest_fit M P c f0 arg h0 e0 = Ok (f1, h1, e1) -> fit_data f0 arg = Some data ->
  fc_bootstrap c = true -> fc_oob c = true -> forall k tc t, nth_error (f_trees f1) k = Some (tc, t) ->
  exists a, grown P M tc a t /\ ta_data a = data /\ length (train_rows a) = length data /\
    (exists l, nth_error (f_oob f1) k = Some l /\ StronglySorted lt l /\ (forall i, In i l <-> i < length data /\ ~ In i (train_rows a))).
Proof. exact forest_oob. Qed.
Print Assumptions C45_out_of_bag_rows.

Theorem C46_oob_accuracy_partial : forall M P c f0 arg h0 e0 f1 h1 e1 f, forest_fit M P c f0 arg h0 e0 = Ok (f1, h1, e1) -> used c h1 f1 f ->
  forall data, fit_data f0 arg = Some data -> some_rows c (length data) -> fc_bootstrap c = true -> fc_oob c = true ->
  forall h d s f', get_oob_score c f h d = Ok (s, f') -> fc_class c = true -> good_classes (f_classes f0) -> (forall k i, In (k, i) (f_classes f0) -> k = Nq i) ->
  exists r la V C, f_org f = Some r /\ nth_error h r = Some la /\ (forall i, i < length (la_vals la) -> oob_votes f (nth i (points data d) []) i (V i)) /\
    (forall i, In i (covered V (length (la_vals la))) -> exists j, oob_class V (length (f_classes f0)) i j /\ In (C i, j) (f_classes f0)) /\
    s = mean_over (covered V (length (la_vals la))) (fun i => if qeq (nth i (la_vals la) 0%Qc) (C i) then 1%Qc else 0%Qc).
Proof. exact oob_accuracy. Qed.
Print Assumptions C46_oob_accuracy_partial.
Theorem C46_oob_mse_partial : forall M P c f0 arg h0 e0 f1 h1 e1 f, forest_fit M P c f0 arg h0 e0 = Ok (f1, h1, e1) -> used c h1 f1 f ->
  forall data, fit_data f0 arg = Some data -> some_rows c (length data) -> fc_bootstrap c = true -> fc_oob c = true ->
  forall h d s f', get_oob_score c f h d = Ok (s, f') -> fc_class c = false -> (forall i, length (left_out f i) <= 1) ->
  exists r la V, f_org f = Some r /\ nth_error h r = Some la /\ (forall i, i < length (la_vals la) -> oob_votes f (nth i (points data d) []) i (V i)) /\ s = oob_mse V (la_vals la).
Proof. exact oob_single. Qed.
Print Assumptions C46_oob_mse_partial.
Theorem C46_oob_mse_refuted : exists P M c X h e f0 e0 f h1 e1 ys s f' V,
  forest_new P c (Some X) (Some 0) None None h e = Ok (f0, e0) /\ forest_fit M P c f0 (None, None) h e0 = Ok (f, h1, e1) /\
  fc_class c = false /\ nth_error h1 0 = Some {| la_int := false; la_vals := ys |} /\ get_oob_score c f h1 None = Ok (s, f') /\
  (forall i, i < length ys -> oob_votes f (nth i X []) i (V i)) /\ s <> oob_mse V ys.
Proof. exact oob_not_mse. Qed.
Print Assumptions C46_oob_mse_refuted.
(** Every out-of-bag prediction is right, and the score is 0. *)
Theorem C46_oob_accuracy_refuted : exists P M c X h e f0 e0 f h1 e1 r ys f' V,
  forest_new P c (Some X) (Some 0) None None h e = Ok (f0, e0) /\ forest_fit M P c f0 (None, None) h e0 = Ok (f, h1, e1) /\
  fc_class c = true /\ f_org f = Some r /\ nth_error h1 r = Some {| la_int := true; la_vals := ys |} /\ get_oob_score c f h1 None = Ok (Fin 0, f') /\
  (forall i, i < length ys -> oob_votes f (nth i X []) i (V i)) /\ covered V (length ys) <> [] /\
  (forall i, In i (covered V (length ys)) -> exists j, oob_class V (length (f_classes f)) i j /\ In (nth i ys 0%Qc, j) (f_classes f)).
Proof. exact oob_not_accuracy. Qed.
Print Assumptions C46_oob_accuracy_refuted.
Theorem C81_oob_score_value : forall M P c f0 arg h0 e0 f1 h1 e1 f, forest_fit M P c f0 arg h0 e0 = Ok (f1, h1, e1) -> used c h1 f1 f ->
  forall data, fit_data f0 arg = Some data -> some_rows c (length data) -> fc_bootstrap c = true -> fc_oob c = true ->
  forall h d s f', get_oob_score c f h d = Ok (s, f') -> (fc_class c = true -> good_classes (f_classes f0)) ->
  exists r la V, f_org f = Some r /\ nth_error h r = Some la /\ (forall i, i < length (la_vals la) -> oob_votes f (nth i (points data d) []) i (V i)) /\
    (if fc_class c
     then exists J, (forall i, In i (covered V (length (la_vals la))) -> oob_class V (length (f_classes f0)) i (J i)) /\
            s = mean_over (covered V (length (la_vals la))) (fun i => if qeq (nth i (la_vals la) 0%Qc) (Nq (J i)) then 1%Qc else 0%Qc)
     else s = mean_over (covered V (length (la_vals la))) (fun i => let e := (nth i (la_vals la) 0 - mean (map value_of (V i)) / Nq (length (V i)))%Qc in (e * e)%Qc)).
Proof. exact oob_score_spec. Qed.
Print Assumptions C81_oob_score_value.
Example C81_runs :
  check (frun P1 fc_cl X6 (heap_of Y6) None None) (fun r => check (get_oob_score fc_cl (fst (fst r)) (snd (fst r)) None) (fun s => xlt (Fin 0) (fst s)) && (length (f_oob (fst (fst r))) =? 3)) = true /\
  check (frun P1 fc_re X6 (heap_of T6) None None) (fun r => check (get_oob_score fc_re (fst (fst r)) (snd (fst r)) None) (fun s => xlt (Fin 0) (fst s)) && check (calculate_mdi (fst (fst r))) (fun m => existsb (fun x => xlt x (Fin 0)) (fst m))) = true.
Proof. exact scores_ex. Qed.

(** ** Importance *)
Theorem C82_importance_value : forall M P c f0 arg h0 e0 f1 h1 e1 f, forest_fit M P c f0 arg h0 e0 = Ok (f1, h1, e1) -> used c h1 f1 f ->
  forall data, fit_data f0 arg = Some data -> some_rows c (length data) -> f_mdg f0 = None ->
  exists arr f', calculate_mdi f = Ok (arr, f') /\ importance data arr f.
Proof. exact mdi_importance. Qed.
Print Assumptions C82_importance_value.
(** The entries: no recorded reduction is positive, and the value is at most the sum over the
    splits that were made, which is itself at most 0. *)
Theorem C47_importance_signs_partial : forall M P c f0 arg h0 e0 f1 h1 e1 f, forest_fit M P c f0 arg h0 e0 = Ok (f1, h1, e1) -> used c h1 f1 f ->
  forall data, fit_data f0 arg = Some data -> some_rows c (length data) ->
  forall j, Forall below0 (flat_map (fun ct => evaluated (snd ct) j) (f_trees f)) /\
    xle (xtotal (flat_map (fun ct => evaluated (snd ct) j) (f_trees f))) (xtotal (flat_map (fun ct => made (snd ct) j) (f_trees f))) = true /\
    xle (xtotal (flat_map (fun ct => made (snd ct) j) (f_trees f))) (Fin 0) = true.
Proof. exact mdi_signs. Qed.
Print Assumptions C47_importance_signs_partial.
(** Without a budget, with a non-negative threshold and no tree at its leaf limit, only splits
    that were made count. *)
Theorem C47_importance_made_partial : forall M P c f0 arg h0 e0 f1 h1 e1 f data j, forest_fit M P c f0 arg h0 e0 = Ok (f1, h1, e1) -> used c h1 f1 f ->
  fit_data f0 arg = Some data -> some_rows c (length data) -> f_budget f0 = None -> (0 <= fc_min_imp c)%Qc ->
  (forall ct, In ct (f_trees f) -> fc_max_leaves c <> Some (length (t_leaves (snd ct)))) ->
  xtotal (flat_map (fun ct => evaluated (snd ct) j) (f_trees f)) = xtotal (flat_map (fun ct => made (snd ct) j) (f_trees f)).
Proof. exact mdi_all_made. Qed.
Print Assumptions C47_importance_made_partial.
Example C47_hypotheses : some_rows fc_re (length X6) /\ f_budget (fst (start P1 fc_re T6)) = None /\ (0 <= fc_min_imp fc_re)%Qc /\ fc_max_leaves fc_re = None /\ f_mdg (fst (start P1 fc_re T6)) = None.
Proof. split; [apply some_rows_ex|]. split; [reflexivity|]. split; [apply Qcle_refl|]. split; reflexivity. Qed.
Theorem C47_importance_refuted : exists P M c X h e f0 e0 f h1 e1 arr f' j v,
  forest_new P c (Some X) (Some 0) None None h e = Ok (f0, e0) /\ forest_fit M P c f0 (None, None) h e0 = Ok (f, h1, e1) /\
  calculate_mdi f = Ok (arr, f') /\ nth_error arr j = Some v /\ v <> xtotal (flat_map (fun ct => made (snd ct) j) (f_trees f)).
Proof. exact unsplit_counted. Qed.
Print Assumptions C47_importance_refuted.
Theorem C48_importance_current_refuted : exists P M c X X' h e f0 e0 f1 h1 e1 arr f2 f3 h3 e3 arr' f4,
  forest_new P c (Some X) (Some 0) None None h e = Ok (f0, e0) /\ forest_fit M P c f0 (None, None) h e0 = Ok (f1, h1, e1) /\
  calculate_mdi f1 = Ok (arr, f2) /\ forest_fit M P c (forest_reset c f2 None) (Some X', Some 0) h1 e1 = Ok (f3, h3, e3) /\
  calculate_mdi f3 = Ok (arr', f4) /\ ~ importance X' arr' f3.
Proof. exact stale_importance. Qed.
Print Assumptions C48_importance_current_refuted.
Theorem C83_importance_frozen : forall M P c f arr f1 f', calculate_mdi f = Ok (arr, f1) -> lives M P c f1 f' -> calculate_mdi f' = Ok (arr, f').
Proof. exact frozen_call. Qed.
Print Assumptions C83_importance_frozen.

(** ** Reset, seeds, criterion *)
Theorem C49_reset_budget_refuted : exists P M c X h e f0 e0 f1 h1 e1 f2 h2 e2 g0 d0 g h3 e3,
  forest_new P c (Some X) (Some 0) None (Some 5%Z) h e = Ok (f0, e0) /\ forest_fit M P c f0 (None, None) h e0 = Ok (f1, h1, e1) /\
  forest_fit M P c (forest_reset c f1 (Some 1000%Z)) (Some X, Some 0) h1 e1 = Ok (f2, h2, e2) /\ f_trees f2 = [] /\ (forall b, f_budget f2 = Some b -> (b < 1000)%Z) /\
  forest_new P c (Some X) (Some 0) None (Some 1000%Z) h e = Ok (g0, d0) /\ forest_fit M P c g0 (None, None) h d0 = Ok (g, h3, e3) /\ f_trees g <> [].
Proof. exact reset_keeps_budget. Qed.
Print Assumptions C49_reset_budget_refuted.
Theorem C84_fit_after_reset : forall M P c f b arg h e f' h' e', forest_fit M P c (forest_reset c f b) arg h e = Ok (f', h', e') ->
  (exists d r, arg = (Some d, Some r)) /\ f_queries f' = spent (f_trees f') /\
  match f_budget f with
  | None => f_budget f' = None /\ length (f_trees f') = fc_n c
  | Some k => f_budget f' = Some (k - Z.of_nat (f_queries f'))%Z
  end.
Proof. exact after_reset. Qed.
Print Assumptions C84_fit_after_reset.

(** The generators before construction do not matter; nor does the memory, once the same
    contents are returned by np.empty from now on. *)
Theorem C50_reproducible_partial : forall M P c data labels classes budget h e e' f e1 arg f1 h1 e2, coming e e' ->
  forest_new P c data labels classes budget h e = Ok (f, e1) -> forest_fit M P c f arg h e1 = Ok (f1, h1, e2) ->
  exists e1' e2', forest_new P c data labels classes budget h e' = Ok (f, e1') /\ forest_fit M P c f arg h e1' = Ok (f1, h1, e2').
Proof. exact forest_reproducible. Qed.
Print Assumptions C50_reproducible_partial.
Theorem C50_between_refuted : exists P M c X h e f0 e0 f h1 e1 f' h1' e1' x v v' g g',
  forest_new P c (Some X) (Some 0) None None h e = Ok (f0, e0) /\ forest_fit M P c f0 (None, None) h e0 = Ok (f, h1, e1) /\
  forest_fit M P c f0 (None, None) h (set_np e0 (snd (draw (e_np e0)))) = Ok (f', h1', e1') /\
  forest_predict c f x = Ok (FReg v, g) /\ forest_predict c f' x = Ok (FReg v', g') /\ v <> v'.
Proof. exact draw_between. Qed.
Print Assumptions C50_between_refuted.
Theorem C85_forest_depends_on_seed_only : forall M P c d0 l0 classes budget h e e' f e1 arg f' h' e2 data W la m,
  forest_new P c d0 l0 classes budget h e = Ok (f, e1) -> forest_trainable c f arg h data W -> (exists r, fit_ref f arg = Some r /\ nth_error h r = Some la) ->
  forest_bins c data (if fc_class c then map trunc (la_vals la) else la_vals la) W m ->
  (fc_solver c = EXACT /\ m = 2 \/ fc_solver c = MAB /\ 1 <= fc_batch c /\ fc_bin c <> IDENTITY /\ m = 6) ->
  forest_fit M P c f arg h e1 = Ok (f', h', e2) ->
  exists e1' e2', forest_new P c d0 l0 classes budget h e' = Ok (f, e1') /\ forest_fit M P c f arg h e1' = Ok (f', h', e2').
Proof. exact forest_seed_only. Qed.
Print Assumptions C85_forest_depends_on_seed_only.
Theorem C87_tree_depends_on_seed_only : forall P M c a W e e' t, trainable c a W -> memory_free c a -> built P M c a e t -> built P M c a e' t.
Proof. exact tree_seed_only. Qed.
Print Assumptions C87_tree_depends_on_seed_only.
Theorem C87_tree_reproducible : forall P M c a e e' t, coming e e' -> built P M c a e t -> built P M c a e' t.
Proof. exact tree_reproducible. Qed.
Print Assumptions C87_tree_reproducible.
Example C87_hypotheses : trainable cfg_class (targs_of Y6) 2 /\ memory_free cfg_class (targs_of Y6) /\ memory_free cfg_mab (targs_of Y6) /\ coming env0 (set_np env0 [8; 9]).
Proof.
  split; [apply targs_trainable|]. split; [left; split; [reflexivity|split; [intros [Z|Z]; discriminate Z|exact I]]|]. split; [|intros k; reflexivity].
  right. split; [reflexivity|]. split; [cbn; lia|]. split; [discriminate|]. split; [intros _; cbn; lia|]. split; [reflexivity|apply X6_consistent].
Qed.

Theorem C51_criterion_honoured_refuted : exists P M c X h e f0 e0 f h1 e1,
  forest_new P c (Some X) (Some 0) None None h e = Ok (f0, e0) /\ forest_fit M P c f0 (None, None) h e0 = Ok (f, h1, e1) /\
  fc_class c = true /\ fc_crit c = ENTROPY /\ f_trees f <> [] /\ forall ct, In ct (f_trees f) -> tc_crit (fst ct) = GINI.
Proof. exact entropy_ignored. Qed.
Print Assumptions C51_criterion_honoured_refuted.
Theorem C86_criterion_of_trees : forall M P c f arg h e f1 h1 e1, forest_fit M P c f arg h e = Ok (f1, h1, e1) ->
  forall ct, In ct (f_trees f1) -> tc_crit (fst ct) = (if fc_class c then GINI else MSE) /\ tc_splitter (fst ct) = BEST.
Proof. exact tree_criteria. Qed.
Print Assumptions C86_criterion_of_trees.
Theorem C86_criterion_ignored : forall M P c m s f arg h e, forest_fit M P (with_criterion c m s) f arg h e = forest_fit M P c f arg h e.
Proof. exact criterion_ignored. Qed.
Print Assumptions C86_criterion_ignored.

(** ** Fitting succeeds *)
Theorem C80_fit_succeeds : forall M P c f arg h e data W la m, forest_trainable c f arg h data W -> (exists r, fit_ref f arg = Some r /\ nth_error h r = Some la) ->
  forest_bins c data (if fc_class c then map trunc (la_vals la) else la_vals la) W m ->
  (fc_solver c = EXACT /\ m = 2 \/ fc_solver c = MAB /\ fc_class c = true /\ 1 <= fc_batch c /\ fc_bin c <> IDENTITY /\ m = 6) ->
  exists f' h' e', forest_fit M P c f arg h e = Ok (f', h', e').
Proof. exact forest_fits. Qed.
Print Assumptions C80_fit_succeeds.
Example C80_hypotheses : (exists e, forest_new P1 fc_cl (Some X6) (Some 0) None None (heap_of Y6) env0 = Ok (fst (start P1 fc_cl Y6), e)) /\
  forest_trainable fc_cl (fst (start P1 fc_cl Y6)) (None, None) (heap_of Y6) X6 2 /\ forest_bins fc_cl X6 (map trunc Y6) 2 2 /\
  forest_trainable fc_bo (fst (start P1 fc_bo T6)) (None, None) (heap_of T6) X6 2 /\ forest_trainable fc_one (fst (start P1 fc_one T6)) (None, None) (heap_of T6) X6 2.
Proof. destruct trainable_ex as (A & B & C & D). split; [exists (snd (start P1 fc_cl Y6)); reflexivity|]. split; [exact A|]. split; [now apply bins_ex|]. auto. Qed.

(** ** What each tree is given *)
Theorem C111_settings_reach_the_trees : forall M P c f arg h e f1 h1 e1, forest_fit M P c f arg h e = Ok (f1, h1, e1) ->
  forall tc t, In (tc, t) (f_trees f1) -> honoured c f1 tc.
Proof. exact tree_settings. Qed.
Print Assumptions C111_settings_reach_the_trees.
Theorem C111_precomputed_ranges : forall M P c f arg h e f1 h1 e1 data r0, forest_fit M P c f arg h e = Ok (f1, h1, e1) -> fit_data f arg = Some data -> nth_error data 0 = Some r0 ->
  fc_precomp_minmax c = true ->
  exists mn mx, f_minmax f1 = Some (mn, mx) /\ length mn = length r0 /\ length mx = length r0 /\
    forall j lo hi, nth_error mn j = Some lo -> nth_error mx j = Some hi ->
      least (SolverSpec.feature_values data j) lo /\ greatest (SolverSpec.feature_values data j) hi.
Proof. exact forest_ranges. Qed.
Print Assumptions C111_precomputed_ranges.
Theorem C111_ranges_kept : forall M P c f arg h e f1 h1 e1, forest_fit M P c f arg h e = Ok (f1, h1, e1) -> fc_precomp_minmax c = false -> f_minmax f1 = f_minmax f.
Proof. exact fitted_minmax. Qed.
Print Assumptions C111_ranges_kept.
Theorem C112_rows_and_columns_of_trees : forall M P c f arg h e f1 h1 e1 data, forest_fit M P c f arg h e = Ok (f1, h1, e1) -> fit_data f arg = Some data ->
  forall tc t, In (tc, t) (f_trees f1) -> exists a r0, nth_error data 0 = Some r0 /\ grown P M tc a t /\ ta_data a = data /\
    sampled c (length data) (length r0) (train_rows a) (train_feats a).
Proof. exact tree_draws. Qed.
Print Assumptions C112_rows_and_columns_of_trees.
Example C112_run : rows_per_tree fc_part 6 = 4%Z /\ feats_per_tree fc_part 2 = 1%Z /\ fc_precomp_minmax fc_part = true /\
  check (frun P1 fc_part X6 (heap_of T6) None None) (fun r => several (fst (fst r)) && match f_minmax (fst (fst r)) with Some ([a; b], _) => true | _ => false end) = true.
Proof. split; [reflexivity|]. split; [reflexivity|]. split; [reflexivity|]. vm_compute. reflexivity. Qed.

(** Tree number k: its rows and columns, the budget the earlier trees left, and the labels. *)
Theorem C112_arguments_of_trees : forall M P c f arg h e f1 h1 e1 data, forest_fit M P c f arg h e = Ok (f1, h1, e1) -> fit_data f arg = Some data ->
  forall k tc t, nth_error (f_trees f1) k = Some (tc, t) -> exists a r0, nth_error data 0 = Some r0 /\ grown P M tc a t /\ ta_data a = data /\
    sampled c (length data) (length r0) (train_rows a) (train_feats a) /\ ta_budget a = remaining (f_budget f) (firstn k (f_trees f1)) /\ affordable (ta_budget a) (t_queries t) /\
    (fc_boosting c = false -> fit_labels c f arg h = Some (ta_labels a)).
Proof. exact tree_arguments. Qed.
Print Assumptions C112_arguments_of_trees.

(** ** The course of fitting *)
Theorem C121_boosted_targets : forall M P c f arg h e f1 h1 e1 data r la, forest_fit M P c f arg h e = Ok (f1, h1, e1) -> fit_data f arg = Some data ->
  fc_class c = false -> fc_boosting c = true -> boost_ref f arg = Some r -> nth_error h r = Some la ->
  exists L, length L = S (length (f_trees f1)) /\ nth_error L 0 = Some (la_vals la) /\
    (exists y, nth_error L (length (f_trees f1)) = Some y /\ nth_error h1 r = Some {| la_int := la_int la; la_vals := y |}) /\
    forall k tc t, nth_error (f_trees f1) k = Some (tc, t) -> exists a y y', grown P M tc a t /\ ta_data a = data /\ nth_error L k = Some y /\ nth_error L (S k) = Some y' /\
      ta_labels a = y /\ boost_round c k tc t data (train_rows a) (la_int la) y y'.
Proof. exact boosted_targets. Qed.
Print Assumptions C121_boosted_targets.
Theorem C122_when_fitting_stops : forall M P c f arg h e f1 h1 e1 data, forest_fit M P c f arg h e = Ok (f1, h1, e1) -> fit_data f arg = Some data ->
  length (f_trees f1) = fc_n c \/
  exists b, f_budget f1 = Some b /\
    ((b <= 0)%Z \/
     exists tc a e t r0, built P M tc a e t /\ honoured c f1 tc /\ nth_error data 0 = Some r0 /\ ta_data a = data /\ sampled c (length data) (length r0) (train_rows a) (train_feats a) /\
       ta_budget a = Some b /\ (t_queries t = 0 \/ (b + 1000000 <= Z.of_nat (t_queries t))%Z)).
Proof. exact when_fitting_stops. Qed.
Print Assumptions C122_when_fitting_stops.
Example C121_C122_runs :
  check (frun P1 fc_bob X6 (heap_of T6) None None) (fun r => several (fst (fst r)) && match nth_error (snd (fst r)) 0 with Some la => negb (same_vals (la_vals la) T6) | None => false end) = true /\
  check (frun P1 fc_re X6 (heap_of T6) None (Some 15%Z)) (fun r => (length (f_trees (fst (fst r))) =? 1) && match f_budget (fst (fst r)) with Some b => (b <=? 0)%Z | None => false end) = true.
Proof. exact course_ex. Qed.

(** ** Construction *)
Theorem C123_accepted : forall P c data labels classes budget h e, (forall r, labels = Some r -> r < length h) ->
  ((exists f e', forest_new P c data labels classes budget h e = Ok (f, e')) <->
   (fc_boosting c = true -> fc_class c = false /\ fc_lr c <> None) /\ (fc_oob c = true -> fc_bootstrap c = true)).
Proof. exact new_accepts. Qed.
Print Assumptions C123_accepted.
Theorem C123_refused : forall P c data labels classes budget h e, (forall r, labels = Some r -> r < length h) ->
  (fc_boosting c = true -> fc_lr c = None -> forest_new P c data labels classes budget h e = Err GenericException) /\
  (fc_boosting c = true -> fc_lr c <> None -> fc_class c = true -> forest_new P c data labels classes budget h e = Err NotImplementedError) /\
  ((fc_boosting c = true -> fc_lr c <> None /\ fc_class c = false) -> fc_oob c = true -> fc_bootstrap c = false -> forest_new P c data labels classes budget h e = Err AssertionError).
Proof. exact new_refusals. Qed.
Print Assumptions C123_refused.
Theorem C123_new_forest : forall P c data labels classes budget h e f e', forest_new P c data labels classes budget h e = Ok (f, e') ->
  f_trees f = [] /\ f_data f = data /\ f_org f = labels /\ f_new f = labels /\ f_budget f = budget /\ f_queries f = 0 /\ f_oob f = [] /\ f_mdg f = None /\ f_minmax f = None /\ f_dd f = None /\
  f_gen f = seed_gen P (fc_seed c) /\ e' = set_seed P (fc_seed c) e.
Proof. exact new_state. Qed.
Print Assumptions C123_new_forest.
(** fit(data) without labels, or fit(labels=...) without data. *)
Theorem C123_fit_needs_both : forall M P c f h e arg, (fst arg = None <-> snd arg <> None) -> forest_fit M P c f arg h e = Err GenericException.
Proof. exact fit_one_argument. Qed.
Print Assumptions C123_fit_needs_both.
Example C123_cases : (exists fe, forest_new P1 fc_bo (Some X6) (Some 0) None (Some 15%Z) (heap_of T6) env0 = Ok fe) /\ (forall r, Some 0 = Some r -> r < length (heap_of T6)) /\
  forest_new P1 (fcfg0 true 3 false FSNone 0%Qc true (Some (frac 1 2))) (Some X6) (Some 0) None None (heap_of Y6) env0 = Err NotImplementedError /\
  (fst (@None (list (list Qc)), Some 0) = None <-> snd (@None (list (list Qc)), Some 0) <> None).
Proof. split; [eexists; reflexivity|]. split; [intros r E; injection E as <-; cbn; lia|]. split; [reflexivity|]. cbn. split; [discriminate|reflexivity]. Qed.

(** ** The labels of the out-of-bag score *)
Theorem C124_labels_compared : forall M P c f0 arg h0 e0 f1 h1 e1 f r la, forest_fit M P c f0 arg h0 e0 = Ok (f1, h1, e1) -> used c h1 f1 f -> fc_boosting c = false ->
  f_org f = Some r -> nth_error h1 r = Some la -> fit_labels c f0 arg h0 = Some (la_vals la).
Proof. exact labels_compared. Qed.
Print Assumptions C124_labels_compared.
Theorem C125_boosted_oob_array_partial : forall M P c f0 arg h0 e0 f1 h1 e1 f, forest_fit M P c f0 arg h0 e0 = Ok (f1, h1, e1) -> used c h1 f1 f -> fc_class c = false ->
  f_org f = fit_ref f0 arg.
Proof. exact boosted_compared. Qed.
Print Assumptions C125_boosted_oob_array_partial.
Theorem C125_boosted_oob_refuted : exists P M c X ys e f0 e0 f h1 e1 s f' V,
  forest_new P c (Some X) (Some 0) None None [{| la_int := false; la_vals := ys |}] e = Ok (f0, e0) /\ forest_fit M P c f0 (None, None) [{| la_int := false; la_vals := ys |}] e0 = Ok (f, h1, e1) /\
  fc_class c = false /\ fc_boosting c = true /\ get_oob_score c f h1 None = Ok (s, f') /\ (forall i, i < length ys -> oob_votes f (nth i X []) i (V i)) /\
  s <> mean_over (covered V (length ys)) (fun i => let e := (nth i ys 0 - mean (map value_of (V i)) / Nq (length (V i)))%Qc in (e * e)%Qc).
Proof. exact boosted_oob_residuals. Qed.
Print Assumptions C125_boosted_oob_refuted.
Example C124_case : fit_labels fc_cl (fst (start P1 fc_cl Y6)) (None, None) (heap_of Y6) = Some (map trunc Y6) /\ boost_ref (fst (start P1 fc_bob T6)) (None, None) = Some 0.
Proof. split; reflexivity. Qed.

(** ** Rounding towards zero *)
Theorem C133_class_labels : forall M P c f0 arg h0 e0 f1 h1 e1 f r la r0 la0, forest_fit M P c f0 arg h0 e0 = Ok (f1, h1, e1) -> used c h1 f1 f -> fc_boosting c = false -> fc_class c = true ->
  f_org f = Some r -> nth_error h1 r = Some la -> fit_ref f0 arg = Some r0 -> nth_error h0 r0 = Some la0 ->
  length (la_vals la) = length (la_vals la0) /\
  forall i y, nth_error (la_vals la0) i = Some y -> exists n, nth_error (la_vals la) i = Some (Zq n) /\ towards_zero y n.
Proof. exact labels_truncated. Qed.
Print Assumptions C133_class_labels.
Theorem C133_sample_sizes : forall M P c f arg h e f1 h1 e1 data, forest_fit M P c f arg h e = Ok (f1, h1, e1) -> fit_data f arg = Some data -> ((fc_alpha_N c < 1)%Qc \/ (fc_alpha_F c < 1)%Qc) ->
  forall tc t, In (tc, t) (f_trees f1) -> exists a r0, nth_error data 0 = Some r0 /\ grown P M tc a t /\ ta_data a = data /\
    towards_zero (Nq (length r0) * fc_alpha_F c) (Z.of_nat (length (train_feats a))) /\
    (fc_bootstrap c = false -> towards_zero (Nq (length data) * fc_alpha_N c) (Z.of_nat (length (train_rows a)))).
Proof. exact sizes_truncated. Qed.
Print Assumptions C133_sample_sizes.
Theorem C133_integer_targets : forall q, exists n, trunc q = Zq n /\ towards_zero q n /\ forall m, towards_zero q m -> m = n.
Proof. exact trunc_spec. Qed.
Print Assumptions C133_integer_targets.
Example C133_ex : (fc_alpha_N fc_part < 1)%Qc /\
  check (frun P1 fc_cl X6 (heap_of [z 0; frac 1 2; z 1; frac 3 2; frac (-3) 2; z 1]) (Some [(z 0, 0); (z 1, 1); (z (-1), 2)]) None)
    (fun r => several (fst (fst r)) && match f_org (fst (fst r)) with Some k => match nth_error (snd (fst r)) k with
       | Some la => if list_eq_dec Qc_eq_dec (la_vals la) [z 0; z 0; z 1; z 1; z (-1); z 1] then true else false | None => false end | None => false end) = true.
Proof. split; [reflexivity|]. vm_compute. reflexivity. Qed.

(** What the comparison with scikit-learn's forests compares. *)
From Coq Require Import List Arith Bool ZArith QArith Qcanon Lia.
From Verif Require Import Base Num Rng Histogram Utils Criteria Solvers Tree Forest Wrappers Compare Baseline Samples Spec SolverSpec TreeSpec ForestSpec PermSpec WrapSpec CompareSpec StabSpec ReportSpec BaselineSpec BaselineThms TreeWitness TrustWitness ForestWitness CompareWitness StabWitness BaselineWitness.
Import ListNotations.
Local Open Scope nat_scope.

(** ** C176: the comparison with scikit-learn *)
(** One seed: our model is exactly its run alone with the exhaustive search; scikit-learn's
    model is fitted to what the label array holds after our fit; both are judged against what
    the arrays hold then. *)
Theorem C176_one_seed : forall sk M P ct d seed h e b h' e', fight sk M P ct d seed h e = Ok (b, h', e') ->
  exists w y yt, entered ct w /\ fitted_alone M P (ct_task ct w d) EXACT seed h e (en_cfg (bo_ours b)) (en_forest (bo_ours b)) h' e' /\
    judge (ct_task ct w d) (en_cfg (bo_ours b)) (en_forest (bo_ours b)) h' = Ok (bo_ours b) /\
    nth_error h' (se_y d) = Some y /\ nth_error h' (se_testy d) = Some yt /\ bo_targets b = la_vals y /\
    scored (ct_class ct) (said (ct_class ct) (sk ct seed (se_X d) (la_vals y) (se_X d))) (la_vals y) (bo_train b) /\
    scored (ct_class ct) (said (ct_class ct) (sk ct seed (se_X d) (la_vals y) (se_testX d))) (la_vals yt) (bo_test b).
Proof. exact one_seed. Qed.
Print Assumptions C176_one_seed.

(** The settings our model is run with. *)
Theorem C176_settings : forall sk M P ct d seed h e b h' e', fight sk M P ct d seed h e = Ok (b, h', e') -> five_trees (ct_class ct) seed (en_cfg (bo_ours b)) /\ own_settings ct (en_cfg (bo_ours b)).
Proof. exact our_settings. Qed.
Print Assumptions C176_settings.

(** Round i has seed i and starts from what round i - 1 left. *)
Theorem C176_rounds : forall sk M P ct d n h e l h' e', fights sk M P ct d n h e = Ok (l, h', e') -> length l = n /\ exists hs es, hs 0 = h /\ es 0 = e /\ hs n = h' /\ es n = e' /\
  forall i b, nth_error l i = Some b -> fight sk M P ct d i (hs i) (es i) = Ok (b, hs (S i), es (S i)).
Proof. exact fights_chain. Qed.
Print Assumptions C176_rounds.

(** Without boosting the arrays are left alone, and every model of every seed learns the
    caller's labels. *)
Theorem C176_same_labels : forall sk M P ct d n h e l h' e' y, ct <> CtGBRFR -> fights sk M P ct d n h e = Ok (l, h', e') -> nth_error h (se_y d) = Some y ->
  (forall r, r < length h -> nth_error h' r = nth_error h r) /\ forall b, In b l -> bo_targets b = la_vals y.
Proof. exact all_same_targets. Qed.
Print Assumptions C176_same_labels.

(** With boosting scikit-learn's model is fitted to our model's errors, and our model's
    training error is the squared distance between twice its prediction and the label. *)
Theorem C176_boosted : forall sk M P d seed h e b h' e' ys, fight sk M P CtGBRFR d seed h e = Ok (b, h', e') -> nth_error h (se_y d) = Some {| la_int := false; la_vals := ys |} ->
  exists ps g, forest_predict_batch (en_cfg (bo_ours b)) (en_forest (bo_ours b)) (se_X d) = Ok (ps, g) /\ length ps = length (bo_targets b) /\
    (forall i v, nth_error ps i = Some (FReg v) -> nth i (bo_targets b) 0%Qc = (nth i ys 0 - v)%Qc) /\
    (forall vs, ps = map FReg vs -> vs <> [] -> en_train (bo_ours b) = Fin (mean (map (fun yv => (snd yv + snd yv - fst yv) * (snd yv + snd yv - fst yv))%Qc (combine ys vs)))).
Proof. exact errors_as_targets. Qed.
Print Assumptions C176_boosted.
Example C176_boosted_ex : nth_error (twice T6) (se_y d6) = Some {| la_int := false; la_vals := T6 |} /\ exists b h e vs g, fight sk_recall Msqrt P1 CtGBRFR d6 1 (twice T6) env0 = Ok (b, h, e) /\
  forest_predict_batch (en_cfg (bo_ours b)) (en_forest (bo_ours b)) X6 = Ok (map FReg vs, g) /\ length vs = 6.
Proof. exact boosted_seed. Qed.

(** So a learner that fits any labels perfectly loses by a factor of more than a hundred,
    on a test set equal to the training set. *)
Theorem C176_boosted_unfair : exists sk M P d seed h e b h' e' y u v, m_sqrt M 0%Qc = 0%Qc /\ (forall ys, length ys = length (se_X d) -> sk CtGBRFR seed (se_X d) ys (se_X d) = ys) /\ se_X d = se_testX d /\ nth_error h (se_y d) = Some y /\ nth_error h (se_testy d) = Some y /\
  fight sk M P CtGBRFR d seed h e = Ok (b, h', e') /\ bo_targets b <> la_vals y /\ en_test (bo_ours b) = Some (Fin u) /\ bo_test b = Fin v /\ (z 100 * u < v)%Qc.
Proof. exact perfect_learner_loses. Qed.
Print Assumptions C176_boosted_unfair.

(** The numbers returned, and the verdict: averages and standard deviations over the seeds. *)
Theorem C176_returned : forall sk M P ct d n h e oc h' e', compare_accuracies sk M P ct d n h e = Ok (oc, h', e') -> 1 <= n ->
  fights sk M P ct d n h e = Ok (oc_bouts oc, h', e') /\
  (forall q, map (fun b => en_train (bo_ours b)) (oc_bouts oc) = map Fin q -> spans M (oc_train oc) q) /\ (forall q, map bo_train (oc_bouts oc) = map Fin q -> spans M (oc_their_train oc) q) /\
  forall os ts, map (fun b => en_test (bo_ours b)) (oc_bouts oc) = map (fun q => Some (Fin q)) os -> map bo_test (oc_bouts oc) = map Fin ts ->
    spans M (oc_test oc) os /\ spans M (oc_their_test oc) ts /\
    (oc_overlap oc = true <-> (mean ts - mean os < deviation M ts + deviation M os)%Qc /\ (mean os - mean ts < deviation M ts + deviation M os)%Qc).
Proof. exact returned. Qed.
Print Assumptions C176_returned.
Example C176_returned_ex : exists oc h e os ts, compare_accuracies sk_drift Msqrt P1 CtRFR d6 3 (twice T6) env0 = Ok (oc, h, e) /\ length os = 3 /\ mean os <> mean ts /\ oc_overlap oc = true /\
  map (fun b => en_test (bo_ours b)) (oc_bouts oc) = map (fun q => Some (Fin q)) os /\ map bo_test (oc_bouts oc) = map Fin ts.
Proof. exact drift_runs. Qed.

(** With one seed the verdict is never positive, whatever the scores. *)
Theorem C176_one_seed_no_overlap : forall sk M P ct d h e oc h' e', (m_sqrt M 0 = 0)%Qc -> compare_accuracies sk M P ct d 1 h e = Ok (oc, h', e') -> oc_overlap oc = false.
Proof. exact no_verdict_from_one. Qed.
Print Assumptions C176_one_seed_no_overlap.
Example C176_one_seed_ex : exists oc h e, m_sqrt Msqrt 0%Qc = 0%Qc /\ compare_accuracies sk_recall Msqrt P1 CtRFC d6 1 (twice Yc) env0 = Ok (oc, h, e) /\ st_avg (oc_test oc) = Fin 1%Qc /\ st_avg (oc_their_test oc) = Fin 1%Qc /\ oc_overlap oc = false.
Proof. exact same_scores_no_overlap. Qed.

Theorem C176_unknown : forall sk M P d n h e, compare_accuracies sk M P CtOther d (S n) h e = Err NotImplementedError.
Proof. exact unknown_contest. Qed.
Print Assumptions C176_unknown.

(** Every contest has a run with five trees. *)
Example C176_ex : Forall (fun cy => exists b h e, fight sk_recall Msqrt P1 (fst cy) d6 1 (twice (snd cy)) env0 = Ok (b, h, e) /\ length (f_trees (en_forest (bo_ours b))) = 5) [(CtRFC, Yc); (CtERFC, Yc); (CtRFR, T6); (CtERFR, T6); (CtGBRFR, T6)].
Proof. exact every_contest. Qed.

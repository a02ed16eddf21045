(** Comparing the bandit search with the exhaustive one. *)
From Coq Require Import List Arith Bool ZArith QArith Qcanon Lia.
From Verif Require Import Base Num Rng Histogram Utils Criteria Solvers Tree Forest Wrappers Compare Samples Spec SolverSpec TreeSpec ForestSpec WrapSpec CompareSpec BlindThms CompareThms CompareMore CompareWitness TreeWitness TrustWitness ForestWitness.
Import ListNotations.
Local Open Scope nat_scope.

(** ** C168: what a comparison compares *)
(** The first model is its run alone.  Without boosting so are its scores. *)
Theorem C168_first_model : forall M P tk seed h e a b h' e', ~ patched (tk_w tk) -> round M P tk seed h e = Ok (a, b, h', e') ->
  exists h1 e1, fitted_alone M P tk MAB seed h e (en_cfg a) (en_forest a) h1 e1 /\ judge tk (en_cfg a) (en_forest a) h' = Ok a.
Proof. exact ours_is_alone. Qed.
Print Assumptions C168_first_model.

Theorem C168_first_scores : forall M P tk seed h e a b h' e', ~ patched (tk_w tk) -> ~ boosts (tk_w tk) -> tk_y tk < length h -> tk_testy tk < length h -> round M P tk seed h e = Ok (a, b, h', e') ->
  exists h1 e1, fitted_alone M P tk MAB seed h e (en_cfg a) (en_forest a) h1 e1 /\ judge tk (en_cfg a) (en_forest a) h = Ok a.
Proof. exact ours_scores_alone. Qed.
Print Assumptions C168_first_scores.

Theorem C168_labels_kept : forall M P tk seed h e a b h' e', ~ boosts (tk_w tk) -> round M P tk seed h e = Ok (a, b, h', e') -> length h <= length h' /\ forall r, r < length h -> nth_error h' r = nth_error h r.
Proof. exact round_keeps_labels. Qed.
Print Assumptions C168_labels_kept.

(** The second model is its run alone for the regression forests that are neither extremely
    random nor boosted. *)
Theorem C168_second_model : forall M P tk seed h e a b h' e', seedless (tk_w tk) -> tk_y tk < length h -> tk_testy tk < length h -> round M P tk seed h e = Ok (a, Some b, h', e') ->
  exists h3 e3, fitted_alone M P tk MAB seed h e (en_cfg a) (en_forest a) h3 e3 /\ judge tk (en_cfg b) (en_forest b) h = Ok b /\
    forall e0, coming e3 e0 -> exists h1 e1, fitted_alone M P tk EXACT seed h e0 (en_cfg b) (en_forest b) h1 e1.
Proof. exact theirs_is_alone. Qed.
Print Assumptions C168_second_model.

Example C168_ex : ~ patched (tk_w task_reg) /\ ~ boosts (tk_w task_reg) /\ seedless (tk_w task_reg) /\ tk_y task_reg < length (twice T6) /\ tk_testy task_reg < length (twice T6) /\
  exists a b h e, round Msqrt P1 task_reg 1 (twice T6) env0 = Ok (a, Some b, h, e) /\ length (f_trees (en_forest a)) = 3 /\ length (f_trees (en_forest b)) = 3 /\ exists x y, en_train a = Fin x /\ en_train b = Fin y /\ (x < y)%Qc.
Proof. exact reg_round. Qed.

(** Not for classifiers: the same settings, another forest. *)
Theorem C168_second_class_refuted : exists P M seed h e a b h' e' c f h1 e1 x l l' ps ps' g g', m_sqrt M 0%Qc = 0%Qc /\
  round M P task_cl seed h e = Ok (a, Some b, h', e') /\ fitted_alone M P task_cl EXACT seed h e c f h1 e1 /\ c = en_cfg b /\
  forest_predict (en_cfg b) (en_forest b) x = Ok (FClass l ps, g) /\ forest_predict c f x = Ok (FClass l' ps', g') /\ l <> l'.
Proof. exact class_round. Qed.
Print Assumptions C168_second_class_refuted.

(** With boosting the second model is fitted to what the first one left of the labels, and the
    training scores of both are taken against what both left. *)
Theorem C168_boosted_round : forall M P tk seed h e a b h' e' ys, tk_w tk = GBHistogramRandomForestRegressor -> nth_error h (tk_y tk) = Some {| la_int := false; la_vals := ys |} ->
  round M P tk seed h e = Ok (a, Some b, h', e') ->
  exists left rest v u h1 e1, fitted_alone M P tk MAB seed h e (en_cfg a) (en_forest a) h1 e1 /\
    nth_error h1 (tk_y tk) = Some {| la_int := false; la_vals := left |} /\ (exists f0, f_org f0 = Some (tk_y tk) /\ forest_fit M P (en_cfg b) f0 (None, None) h1 e1 = Ok (en_forest b, h', e')) /\
    nth_error h' (tk_y tk) = Some {| la_int := false; la_vals := rest |} /\ length rest = length ys /\
    (forall i, i < length (tk_X tk) -> foresees a (nth i (tk_X tk) []) (v i) /\ foresees b (nth i (tk_X tk) []) (u i) /\
       nth i left 0%Qc = (nth i ys 0 - v i)%Qc /\ nth i rest 0%Qc = (nth i ys 0 - v i - u i)%Qc) /\
    en_train a = Fin (mean (map (fun i => let d := (v i - (nth i ys 0 - v i - u i))%Qc in (d * d)%Qc) (seq 0 (length (tk_X tk))))) /\
    en_train b = Fin (mean (map (fun i => let d := (u i - (nth i ys 0 - v i - u i))%Qc in (d * d)%Qc) (seq 0 (length (tk_X tk))))).
Proof. exact boosted_round. Qed.
Print Assumptions C168_boosted_round.

(** Over several seeds every round starts from what the last one left. *)
Theorem C168_labels_drain : forall M P tk, tk_w tk = GBHistogramRandomForestRegressor -> tk_theirs tk = true -> forall n h e l h' e' ys, nth_error h (tk_y tk) = Some {| la_int := false; la_vals := ys |} ->
  rounds M P tk n h e = Ok (l, h', e') -> exists rest, nth_error h' (tk_y tk) = Some {| la_int := false; la_vals := rest |} /\ length l = n /\ length rest = length ys /\
    forall i, i < length (tk_X tk) -> exists vs, Forall2 (fun ab v => foresees (fst ab) (nth i (tk_X tk) []) (fst v) /\ exists b, snd ab = Some b /\ foresees b (nth i (tk_X tk) []) (snd v)) l vs /\
      (nth i rest 0 + total (map (fun v => fst v + snd v) vs))%Qc = nth i ys 0%Qc.
Proof. exact labels_drain. Qed.
Print Assumptions C168_labels_drain.

(** The training set is also the test set.  The first model's two scores on it differ by more
    than a factor of 24, and the second model tests more than 24 times worse than alone. *)
Theorem C168_boosted_refuted : exists P M seed h e a b h' e', m_sqrt M 0%Qc = 0%Qc /\ tk_X task_gb = tk_testX task_gb /\ nth_error h (tk_y task_gb) = nth_error h (tk_testy task_gb) /\
  nth_error h (tk_y task_gb) = Some {| la_int := false; la_vals := T6 |} /\
  round M P task_gb seed h e = Ok (a, Some b, h', e') /\ length (f_trees (en_forest a)) = 3 /\ length (f_trees (en_forest b)) = 3 /\
  (exists x y, en_test a = Some (Fin x) /\ en_train a = Fin y /\ (z 24 * x < y)%Qc) /\
  exists c f h1 e1 g x y, fitted_alone M P task_gb EXACT seed h e c f h1 e1 /\ judge task_gb c f h = Ok g /\ en_test g = Some (Fin x) /\ en_test b = Some (Fin y) /\ (z 24 * x < y)%Qc.
Proof. exact gb_round. Qed.
Print Assumptions C168_boosted_refuted.

(** The verdict: no spread, no overlap, however close the averages; and one seed has no spread. *)
Theorem C168_no_spread_no_overlap : forall M P tk n h e rp h' e' x y, (m_sqrt M 0 = 0)%Qc -> tk_theirs tk = true -> compare M P tk n h e = Ok (rp, h', e') ->
  (forall ab v, In ab (rp_rounds rp) -> en_test (fst ab) = Some v -> v = x) -> (forall ab b v, In ab (rp_rounds rp) -> snd ab = Some b -> en_test b = Some v -> v = y) -> rp_overlap rp = Some false.
Proof. exact no_spread_no_overlap. Qed.
Print Assumptions C168_no_spread_no_overlap.

Theorem C168_one_seed : forall M P tk h e rp h' e', (m_sqrt M 0 = 0)%Qc -> tk_theirs tk = true -> compare M P tk 1 h e = Ok (rp, h', e') -> rp_overlap rp = Some false.
Proof. exact one_seed_no_overlap. Qed.
Print Assumptions C168_one_seed.

Theorem C168_verdict_needs_predict : forall M P tk n h e rp h' e', tk_theirs tk = true -> tk_predict tk = false -> compare M P tk n h e <> Ok (rp, h', e').
Proof. exact verdict_needs_predict. Qed.
Print Assumptions C168_verdict_needs_predict.

(** Equal averages with one seed; an overlap with five. *)
Example C168_verdict_ex : exists rp h e rp2 h2 e2, m_sqrt Msqrt 0%Qc = 0%Qc /\ compare Msqrt P1 task_cl 1 (twice Y6) env0 = Ok (rp, h, e) /\ (exists o t, sd_test (rp_ours rp) = Some o /\ option_map sd_test (rp_theirs rp) = Some (Some t) /\ st_avg o = Fin 1%Qc /\ st_avg t = Fin 1%Qc) /\
  rp_overlap rp = Some false /\ compare Msqrt P1 task_cl 5 (twice Yc) env0 = Ok (rp2, h2, e2) /\ rp_overlap rp2 = Some true.
Proof. exact verdicts. Qed.

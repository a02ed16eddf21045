(** What the numbers of a comparison are. *)
From Coq Require Import List Arith Bool ZArith QArith Qcanon Lia.
From Verif Require Import Base Num Rng Histogram Utils Criteria Solvers Tree Forest Wrappers Compare Samples Spec SolverSpec TreeSpec ForestSpec PermSpec WrapSpec CompareSpec StabSpec ReportSpec ReportThms CompareWitness StabWitness ReportWitness TreeWitness TrustWitness ForestWitness.
Import ListNotations.
Local Open Scope nat_scope.

(** ** C170: what the numbers of a comparison are *)
(** Every score is the accuracy or the mean squared error of that model's predictions. *)
Theorem C170_scores : forall tk c f h a, judge tk c f h = Ok a ->
  exists ps g y, forest_predict_batch c f (tk_X tk) = Ok (ps, g) /\ nth_error h (tk_y tk) = Some y /\ scored (w_class (tk_w tk)) ps (la_vals y) (en_train a) /\
    (tk_predict tk = false -> en_test a = None) /\
    (tk_predict tk = true -> exists qs g' yt s, forest_predict_batch c g (tk_testX tk) = Ok (qs, g') /\ nth_error h (tk_testy tk) = Some yt /\ en_test a = Some s /\ scored (w_class (tk_w tk)) qs (la_vals yt) s).
Proof. exact judged. Qed.
Print Assumptions C170_scores.

(** Round i is run with seed i, in the state round i - 1 left. *)
Theorem C170_rounds : forall M P tk n h e l h' e', rounds M P tk n h e = Ok (l, h', e') -> length l = n /\ exists hs es, hs 0 = h /\ es 0 = e /\ hs n = h' /\ es n = e' /\
  forall i a b, nth_error l i = Some (a, b) -> round M P tk i (hs i) (es i) = Ok (a, b, hs (S i), es (S i)).
Proof. exact rounds_chain. Qed.
Print Assumptions C170_rounds.

(** The report holds averages and standard errors over the rounds. *)
Theorem C170_report : forall M P tk n h e rp h' e', root M -> 1 <= n -> compare M P tk n h e = Ok (rp, h', e') ->
  rounds M P tk n h e = Ok (rp_rounds rp, h', e') /\ summarises M (tk_predict tk) (rp_ours rp) (map fst (rp_rounds rp)) /\
  (tk_theirs tk = true -> exists bs d, map snd (rp_rounds rp) = map Some bs /\ rp_theirs rp = Some d /\ summarises M (tk_predict tk) d bs).
Proof. exact reported. Qed.
Print Assumptions C170_report.

(** The verdict: the averages are closer than the two standard errors together. *)
Theorem C170_overlap : forall M P tk n h e rp h' e' os ts, root M -> 1 <= n -> tk_theirs tk = true -> compare M P tk n h e = Ok (rp, h', e') ->
  map (fun ab => en_test (fst ab)) (rp_rounds rp) = map (fun q => Some (Fin q)) os -> map (fun ab => option_map en_test (snd ab)) (rp_rounds rp) = map (fun q => Some (Some (Fin q))) ts ->
  option_map sd_test (rp_theirs rp) = Some (Some (summary M ts)) /\
  exists b, rp_overlap rp = Some b /\ (b = true <-> (mean ts - mean os < std_error M ts + std_error M os)%Qc /\ (mean os - mean ts < std_error M ts + std_error M os)%Qc).
Proof. exact overlap_rule. Qed.
Print Assumptions C170_overlap.

Example C170_ex : root Mflat /\ tk_theirs task_reg = true /\ exists rp h e os ts, compare Mflat P1 task_reg 3 (twice T6) env0 = Ok (rp, h, e) /\ length os = 3 /\ mean os <> mean ts /\ rp_overlap rp = Some true /\
  map (fun ab => en_test (fst ab)) (rp_rounds rp) = map (fun q => Some (Fin q)) os /\ map (fun ab => option_map en_test (snd ab)) (rp_rounds rp) = map (fun q => Some (Some (Fin q))) ts.
Proof. exact three_rounds. Qed.

(** The stability experiments. *)
From Coq Require Import List Arith Bool ZArith QArith Qcanon Lia.
From Verif Require Import Base Num Rng Histogram Utils Criteria Solvers Tree Forest Permutation Wrappers Compare Stability Samples Spec SolverSpec TreeSpec ForestSpec PermSpec StabSpec StabThms StabWitness TreeWitness TrustWitness ForestWitness PermWitness.
Import ListNotations.
Local Open Scope nat_scope.

(** ** C169: what the stability test tests *)
(** Each stability is that of an object alone, with its own seed; the bandit object has no limit
    on the number of leaves. *)
Theorem C169_trials_alone : forall order M P t seed h e l h' e', trials order M P t seed h e = Ok (l, h', e') ->
  length l = tt_trials t /\
  forall i v w, nth_error l i = Some (v, w) -> exists c1 c2 h1 e1 h2 e2, searching (tt_cfg t) EXACT (pc_leaves (tt_cfg t)) c1 /\ searching (tt_cfg t) MAB None c2 /\
    (forall r, r < length h -> nth_error h1 r = nth_error h r /\ nth_error h2 r = nth_error h r) /\
    (forall e0, coming e1 e0 -> finds order M P c1 (nth (2 * i) (PermSpec.draws (2 * tt_trials t) (seed_gen P seed)) 0) (tt_k t) h1 e0 v) /\
    (forall e0, coming e2 e0 -> finds order M P c2 (nth (2 * i + 1) (PermSpec.draws (2 * tt_trials t) (seed_gen P seed)) 0) (tt_k t) h2 e0 w).
Proof. exact trials_alone. Qed.
Print Assumptions C169_trials_alone.

(** The test returns exactly when the upper bound of EXACT lies below the lower bound of MAB. *)
Theorem C169_verdict : forall order M P t seed h e l h' e', root M -> trials order M P t seed h e = Ok (map (fun ab => (Fin (fst ab), Fin (snd ab))) l, h', e') -> 1 <= tt_trials t ->
  ((mean (map fst l) + tt_conf t * std_error M (map fst l) < mean (map snd l) - tt_conf t * std_error M (map snd l))%Qc ->
     stability_test order M P t seed h e = Ok ((Fin (mean (map fst l) - tt_conf t * std_error M (map fst l))%Qc, Fin (mean (map fst l) + tt_conf t * std_error M (map fst l))%Qc),
       (Fin (mean (map snd l) - tt_conf t * std_error M (map snd l))%Qc, Fin (mean (map snd l) + tt_conf t * std_error M (map snd l))%Qc), h', e')) /\
  ((mean (map snd l) - tt_conf t * std_error M (map snd l) <= mean (map fst l) + tt_conf t * std_error M (map fst l))%Qc -> stability_test order M P t seed h e = Err AssertionError).
Proof. exact verdict_finite. Qed.
Print Assumptions C169_verdict.

Theorem C169_passes_only_if_better : forall order M P t seed h e l h' e', root M -> trials order M P t seed h e = Ok (map (fun ab => (Fin (fst ab), Fin (snd ab))) l, h', e') -> 1 <= tt_trials t ->
  (0 <= tt_conf t)%Qc -> (mean (map snd l) <= mean (map fst l))%Qc -> stability_test order M P t seed h e = Err AssertionError.
Proof. exact passes_only_if_better. Qed.
Print Assumptions C169_passes_only_if_better.

Example C169_ex : root Mflat /\ 1 <= tt_trials (stest_of 1 None) /\ (0 <= tt_conf (stest_of 1 None))%Qc /\
  exists l h e, trials argsort0 Mflat P9 (stest_of 1 None) 3 (heap_of T6) env0 = Ok (map (fun ab => (Fin (fst ab), Fin (snd ab))) l, h, e) /\
    (mean (map fst l) + tt_conf (stest_of 1 None) * std_error Mflat (map fst l) < mean (map snd l) - tt_conf (stest_of 1 None) * std_error Mflat (map snd l))%Qc.
Proof. exact stab_pass. Qed.

(** Intervals that do not overlap can raise "Exact and MABs stability overlaps". *)
Theorem C169_overlap_refuted : exists order M P t seed h e l h' e', sorts order /\ root M /\ trials order M P t seed h e = Ok (map (fun ab => (Fin (fst ab), Fin (snd ab))) l, h', e') /\
  (mean (map snd l) + tt_conf t * std_error M (map snd l) < mean (map fst l) - tt_conf t * std_error M (map fst l))%Qc /\ stability_test order M P t seed h e = Err AssertionError.
Proof. exact stab_swap. Qed.
Print Assumptions C169_overlap_refuted.

(** The limit matters: with it the bandit object of the trial would be less stable. *)
Theorem C169_limit_refuted : exists order M P t seed h e v w h' e' c u, sorts order /\ root M /\ pc_leaves (tt_cfg t) = Some 2 /\ trials order M P t seed h e = Ok ([(v, w)], h', e') /\
  searching (tt_cfg t) MAB (pc_leaves (tt_cfg t)) c /\ finds order M P c (nth 1 (PermSpec.draws 2 (seed_gen P seed)) 0) (tt_k t) h e u /\ xlt u w = true.
Proof. exact stab_limit. Qed.
Print Assumptions C169_limit_refuted.

(** Stabilities that are not numbers pass the test; so do no trials and no features. *)
Theorem C169_nan_passes : forall order M P t seed h e l h' e', trials order M P t seed h e = Ok (l, h', e') -> In NaN (map fst l) \/ In NaN (map snd l) \/ tt_trials t = 0 ->
  exists ex mab, stability_test order M P t seed h e = Ok (ex, mab, h', e') /\ (ex = (NaN, NaN) \/ mab = (NaN, NaN)).
Proof. exact nan_passes. Qed.
Print Assumptions C169_nan_passes.

Theorem C169_zero_features_pass : forall order M P t seed h e l h' e', tt_k t = 0%Z -> trials order M P t seed h e = Ok (l, h', e') ->
  exists ex mab, stability_test order M P t seed h e = Ok (ex, mab, h', e') /\ ex = (NaN, NaN) /\ mab = (NaN, NaN).
Proof. exact zero_features_pass. Qed.
Print Assumptions C169_zero_features_pass.
Example C169_zero_ex : exists l h e, trials argsort0 Mflat P9 (stest_of 0 None) 3 (heap_of T6) env0 = Ok (l, h, e).
Proof. exact stab_zero. Qed.

(** The test with one seed. *)
Theorem C169_budget_test : forall order M P c seed k h e h' e', budget_test order M P c seed k h e = Ok (h', e') ->
  exists c1 c2 h1 e1 e2 v w, searching c EXACT (pc_leaves c) c1 /\ searching c MAB (pc_leaves c) c2 /\ (forall r, r < length h -> nth_error h1 r = nth_error h r) /\
    (forall e0, coming e1 e0 -> finds order M P c1 seed k h e0 v) /\ (forall e0, coming e2 e0 -> finds order M P c2 seed k h1 e0 w) /\ xlt v w = true.
Proof. exact budget_test_passes. Qed.
Print Assumptions C169_budget_test.
Example C169_budget_ex : exists seed h e, budget_test argsort0 Mflat P9 (tt_cfg (stest_of 1 None)) seed 1 (heap_of T6) env0 = Ok (h, e).
Proof. exact stab_budget. Qed.

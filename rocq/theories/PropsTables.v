(** Properties C185 to C188: the tables and the scaling plot. *)
From Coq Require Import List Arith ZArith QArith Qcanon.
From Verif Require Import Base Num Rng Tree Forest Wrappers Compare Baseline Stability Spec TreeSpec Tables TablesSpec TablesThms.
From Verif Require Import Samples TreeWitness TrustWitness ForestWitness CompareWitness ReportWitness BaselineWitness TablesWitness.
Import ListNotations.
Local Open Scope nat_scope.

Theorem C185_runtime : forall ours theirs rows, runtime_rows ours theirs = Ok rows -> exists o t a b c d,
  sd_test ours = Some o /\ sd_test theirs = Some t /\ rows = [(false, [a; b]); (true, [c; d])] /\
  shows (sd_queries theirs) a /\ shows t b /\ shows (sd_queries ours) c /\ shows o d.
Proof. exact runtime_rows_ok. Qed.
Print Assumptions C185_runtime.

Theorem C185_budget : forall ours theirs rows, budget_rows ours theirs = Ok rows -> exists o t a b c d,
  sd_test ours = Some o /\ sd_test theirs = Some t /\ rows = [(false, [a; b]); (true, [c; d])] /\
  shows (sd_trees theirs) a /\ shows t b /\ shows (sd_trees ours) c /\ shows o d.
Proof. exact budget_rows_ok. Qed.
Print Assumptions C185_budget.

(** Printed figures are never in the wrong order, and figures of three digits are exact. *)
Theorem C185_order : forall q q', (q <= q')%Qc -> (round3 q <= round3 q')%Qc.
Proof. exact round3_mono. Qed.
Print Assumptions C185_order.

Theorem C185_exact : forall q, thousandth q -> round3 q = q.
Proof. exact round3_exact. Qed.
Print Assumptions C185_exact.

Example C185_case : (exists r, runtime_rows side2 side2 = Ok r /\ exists r', budget_rows side2 side2 = Ok r') /\
  map (fun q => this (round3 q)) [Q2Qc (2 # 3); Q2Qc (1 # 2000); Q2Qc (3 # 2000); Q2Qc (-1 # 3)] = [667 # 1000; 0; 1 # 500; -333 # 1000]%Q.
Proof. exact (conj side2_rows round_cases). Qed.

Theorem C186_stability : forall M n conf l1 l2 m1 s1 m2 s2, (0 <= conf)%Qc ->
  st_avg (stat_of M n l1) = Fin m1 -> st_std (stat_of M n l1) = Fin s1 -> (0 <= s1)%Qc ->
  st_avg (stat_of M n l2) = Fin m2 -> st_std (stat_of M n l2) = Fin s2 -> (0 <= s2)%Qc ->
  exists a b c d, stability_rows (interval M n conf l1) (interval M n conf l2) = [(false, [(Fin a, Fin b)]); (true, [(Fin c, Fin d)])] /\
    closest m1 a /\ closest (conf * s1)%Qc b /\ closest m2 c /\ closest (conf * s2)%Qc d.
Proof. exact stability_rows_ok. Qed.
Print Assumptions C186_stability.

Example C186_case : st_avg (stat_of Msqrt 4 trials4) = Fin (Nq 2) /\ exists s, st_std (stat_of Msqrt 4 trials4) = Fin s /\ (0 < s)%Qc.
Proof. exact trials4_stat. Qed.

(** The column headed Test Performance shows the training scores. *)
Theorem C187_column_partial : forall oc, exists a b, accuracy_rows oc = [(false, [a]); (true, [b])] /\ shows (oc_their_train oc) a /\ shows (oc_train oc) b.
Proof. exact accuracy_rows_ok. Qed.
Print Assumptions C187_column_partial.

Theorem C187_test_refuted : exists oc h e a b, compare_accuracies sk_recall Msqrt P1 CtRFC d6 1 flipped env0 = Ok (oc, h, e) /\
  accuracy_rows oc = [(false, [a]); (true, [b])] /\ fst a = Fin 1%Qc /\ st_avg (oc_their_test oc) = Fin 0%Qc /\ ~ shows (oc_their_test oc) a.
Proof. exact table6_train. Qed.
Print Assumptions C187_test_refuted.

Theorem C188_r_squared : forall a b xs ys, length xs = length ys -> least_line a b xs ys -> varied ys ->
  exists r, r_squared (map (line_at a b) xs) ys = Fin r /\ (0 <= r)%Qc /\ (r <= 1)%Qc /\ (r = 1%Qc <-> map (line_at a b) xs = ys) /\
    (r * (covar xs xs * covar ys ys) = covar xs ys * covar xs ys)%Qc.
Proof. exact r_squared_ok. Qed.
Print Assumptions C188_r_squared.

Theorem C188_constant : forall a b xs ys, length xs = length ys -> least_line a b xs ys -> ~ varied ys -> r_squared (map (line_at a b) xs) ys = NaN.
Proof. exact r_squared_flat. Qed.
Print Assumptions C188_constant.

Example C188_case : least_line (Q2Qc (2 # 3)) (Q2Qc (1 # 2)) sizes3 counts3 /\
  (varied counts3 /\ r_squared (map (line_at (Q2Qc (2 # 3)) (Q2Qc (1 # 2))) sizes3) counts3 = Fin (Q2Qc (3 # 4))) /\
  (least_line (Nq 5) 0%Qc sizes3 (repeat (Nq 5) 3) /\ ~ varied (repeat (Nq 5) 3)).
Proof. exact (conj least3 (conj plot3 flat3)). Qed.

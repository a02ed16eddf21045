(** Properties of the bandit search when its confidence intervals are right (C136-C138).  The
    vocabulary ([honest_search], [search_ends], [near_best], ...) is in TrustSpec.v. *)
From Coq Require Import List Arith Bool ZArith QArith Qcanon Lia.
From Verif Require Import Base Num Rng Histogram Utils Criteria Solvers Samples Spec SolverSpec NumFacts SampleFacts ExactProps MabProps TrustSpec TrustWitness MabTrust PropsMab.
Import ListNotations.
Local Open Scope nat_scope.

(** The runs of the examples: all their intervals are right. *)
Example honest20 : honest_search Msqrt cfg_mse3 false None 12 X20 Y20 0 2 env20 (drawn cfg_mse3 X20 Y20 env20).
Proof.
  constructor.
  - repeat split; cbn; auto; try discriminate; try (intros r I; repeat (destruct I as [<-|I]; [reflexivity|]); destruct I); try lia.
  - lia.
  - apply drawn_ok. vm_compute. reflexivity.
  - vm_compute. lia.
  - intros s V. apply holdsb_sound. refine (all_hold_sound _ _ _ (fun s => _ s = true) (fun _ H => H) _ _ V 20 _). vm_compute. reflexivity.
Qed.
Example honest12 : honest_search M1 cfg_gini6 false None 5 X12 Y12 0 1 env12 (drawn cfg_gini6 X12 Y12 env12).
Proof.
  constructor.
  - repeat split; cbn; auto; try discriminate; try (intros r I; repeat (destruct I as [<-|I]; [reflexivity|]); destruct I); try lia.
  - lia.
  - apply drawn_ok. vm_compute. reflexivity.
  - vm_compute. lia.
  - intros s V. apply holdsb_sound. refine (all_hold_sound _ _ _ (fun s => _ s = true) (fun _ H => H) _ _ V 20 _). vm_compute. reflexivity.
Qed.

(** ** C136. Right intervals do not make the answer a best one: the search stops as soon as
    five candidates are left and takes the one with the least estimate on the rows it happened
    to sample. *)
Theorem C136_right_intervals_best_answer_refuted : exists M c repl budget batch data labels mir W e0 mh f v r q e1 f' v',
  honest_search M c repl budget batch data labels mir W e0 mh /\
  solve_mab M c 0 repl budget batch data labels mir e0 = Ok (Found f v r q, e1) /\
  f' < W /\ In v' (thresholds mh f') /\ (change M c data labels f' v' < change M c data labels f v)%Qc.
Proof.
  destruct (check_run _ _ run20) as [[o e1] [A B]]. destruct (worse20_spec _ _ B) as [v [r [q [-> C]]]].
  exists Msqrt, cfg_mse3, false, None, 12, X20, Y20, 0%Qc, 2, env20, (drawn cfg_mse3 X20 Y20 env20), 1, v, r, q, e1, 0, 0%Qc.
  split; [exact honest20|]. split; [exact A|]. split; [lia|]. split; [exact first20|exact C].
Qed.
Print Assumptions C136_right_intervals_best_answer_refuted.

(** What is missing: the search must have read every row for each feature that has candidates,
    and the labels must be classes. *)
Theorem C136_right_intervals_best_answer_partial : forall M c budget batch data labels mir W e0 mh out e1,
  honest_search M c false budget batch data labels mir W e0 mh -> s_class c = true ->
  solve_mab M c 0 false budget batch data labels mir e0 = Ok (out, e1) ->
  sres_q out = length data * length (busy_features W (thresholds mh)) ->
  best_answer (change M c data labels) mir W (thresholds mh) out.
Proof. exact (fun M c budget batch data labels mir W e0 mh out e1 H1 H2 H3 H4 => proj2 (honest_full M c budget batch data labels mir W e0 mh out e1 H1 H2 H3 H4)). Qed.
Print Assumptions C136_right_intervals_best_answer_partial.

(** ** C137. How good the answer is: if moreover the candidates left at the end have estimates
    within [d] of the truth, or intervals no wider than [2 d], the answer is within [2 d] of
    the best one.  With or without replacement, whatever the budget. *)
Theorem C137_near_best_answer : forall M c repl budget batch data labels mir W e0 mh s d out e1,
  honest_search M c repl budget batch data labels mir W e0 mh ->
  search_ends M c repl budget batch data labels mir W e0 mh s -> (0 <= d)%Qc ->
  estimates_within d (change M c data labels) (thresholds mh) s \/ intervals_within d (thresholds mh) s ->
  solve_mab M c 0 repl budget batch data labels mir e0 = Ok (out, e1) ->
  (forall f, f < W -> candidates (s_bin c) (nbins c data) (s_minmax c) data f (thresholds mh f)) /\
  near_best d (change M c data labels) mir W (thresholds mh) out.
Proof. exact honest_near. Qed.
Print Assumptions C137_near_best_answer.
(** The search of C136 again: estimates within 7 of changes that are about -20. *)
Example C137_case : exists s out e1,
  search_ends Msqrt cfg_mse3 false None 12 X20 Y20 0 2 env20 (drawn cfg_mse3 X20 Y20 env20) s /\
  estimates_within (z 7) (change Msqrt cfg_mse3 X20 Y20) (thresholds (drawn cfg_mse3 X20 Y20 env20)) s /\
  solve_mab Msqrt cfg_mse3 0 false None 12 X20 Y20 0 env20 = Ok (out, e1).
Proof.
  destruct (check_run (mab_loop Msqrt (search_cfg cfg_mse3 false None 12 X20 Y20 0 2) (mab_fuel 2 3 20) (search_start cfg_mse3 false X20 2 env20 (drawn cfg_mse3 X20 Y20 env20)))
     (withinb (z 7) (change Msqrt cfg_mse3 X20 Y20) (thresholds (drawn cfg_mse3 X20 Y20 env20)))) as [s [A1 A2]]; [vm_compute; reflexivity|].
  destruct (check_run (solve_mab Msqrt cfg_mse3 0 false None 12 X20 Y20 0 env20) (fun _ => true)) as [[out e1] [B _]]; [vm_compute; reflexivity|].
  exists s, out, e1. split; [exact A1|]. split; [now apply withinb_sound|exact B].
Qed.

(** ** C138. A search that reads as many rows as EXACT gives an answer as good as EXACT's. *)
Theorem C138_full_cost_is_optimal : forall M c budget batch data labels mir W e0 mh out e1,
  honest_search M c false budget batch data labels mir W e0 mh -> s_class c = true ->
  solve_mab M c 0 false budget batch data labels mir e0 = Ok (out, e1) ->
  sres_q out = length data * length (busy_features W (thresholds mh)) ->
  (forall f, f < W -> candidates (s_bin c) (nbins c data) (s_minmax c) data f (thresholds mh f)) /\
  best_answer (change M c data labels) mir W (thresholds mh) out.
Proof. exact honest_full. Qed.
Print Assumptions C138_full_cost_is_optimal.
(** Three rounds of five, five and two rows. *)
Example C138_case : exists out e1,
  solve_mab M1 cfg_gini6 0 false None 5 X12 Y12 0 env12 = Ok (out, e1) /\
  sres_q out = length X12 * length (busy_features 1 (thresholds (drawn cfg_gini6 X12 Y12 env12))) /\
  (exists f v r q, out = Found f v r q).
Proof.
  destruct (check_run (solve_mab M1 cfg_gini6 0 false None 5 X12 Y12 0 env12) (full12 (length X12 * length (busy_features 1 (thresholds (drawn cfg_gini6 X12 Y12 env12)))))) as [[o e1] [A B]];
    [vm_compute; reflexivity|].
  destruct (full12_spec _ _ _ B) as [B1 B2]. exists o, e1. auto.
Qed.

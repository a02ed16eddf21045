(** Properties of the bandit (MAB) split search (C12-C19, C71-C73).  The vocabulary
    ([candidates], [arm_count], [picked], [best_answer], ...) is in SolverSpec.v. *)
From Coq Require Import List Arith Bool ZArith QArith Qcanon Lia.
From Verif Require Import Base Num Rng Histogram Utils Criteria Solvers Samples Spec SolverSpec NumFacts SampleFacts HistFacts ExactProps MabProps MabThms.
Import ListNotations.
Local Open Scope nat_scope.

(** Configurations of the examples: eight arms, classification and regression; four arms. *)
Definition cfg_gini8 : scfg := {| s_class := true; s_measure := GINI; s_bin := LINEAR; s_nb := 4; s_minmax := None; s_dd := None |}.
Definition cfg_mse8 : scfg := {| s_class := false; s_measure := MSE; s_bin := LINEAR; s_nb := 4; s_minmax := None; s_dd := None |}.
Definition cfg_gini4 : scfg := {| s_class := true; s_measure := GINI; s_bin := LINEAR; s_nb := 2; s_minmax := None; s_dd := None |}.
(** Some square root and logarithm with positive values. *)
Definition M1 : math := {| m_sqrt := fun x => (x + 1)%Qc; m_log := fun _ => 1%Qc |}.
Definition edges8 (f : nat) : list Qc :=
  if f =? 0 then map (fun b => z 1 + (z 6 - z 1) * (rat b / rat 3))%Qc (seq 0 4)
  else map (fun b => z 10 + (z 20 - z 10) * (rat b / rat 3))%Qc (seq 0 4).

Example mab_solvable : solvable cfg_gini8 X6 Y6 2 /\ solvable cfg_mse8 X6 T6 2 /\ solvable cfg_gini4 X6 Y6 2.
Proof.
  repeat split; cbn; auto; try discriminate; try (intros r I; repeat (destruct I as [<-|I]; [reflexivity|]); destruct I).
Qed.
Example mab_edges : forall f, f < 2 -> candidates LINEAR 4 None X6 f (edges8 f).
Proof.
  intros [|[|f]] H; [| |lia].
  - exists (z 1), (z 6). split; [|right; split; [discriminate|reflexivity]].
    split; (split; [cbn; tauto|]); intros x I; cbn in I; repeat (destruct I as [<-|I]; [vm_compute; discriminate|]); destruct I.
  - exists (z 10), (z 20). split; [|right; split; [discriminate|reflexivity]].
    split; (split; [cbn; tauto|]); intros x I; cbn in I; repeat (destruct I as [<-|I]; [vm_compute; discriminate|]); destruct I.
Qed.
Example mab_arms : 5 < arm_count 2 edges8.
Proof. vm_compute. lia. Qed.
(** A run of one batch, a full run, a regression run with replacement. *)
Example mab_runs :
  check (solve_mab M1 cfg_gini8 0 false None 3 X6 Y6 0 env0) (fun oe => match fst oe with NoSplit q => q =? 6 | _ => false end) = true /\
  check (solve_mab M1 cfg_gini8 0 false None 6 X6 Y6 0 env0) (fun oe => match fst oe with Found f v (Fin r) q =>
     (f =? 0) && qeq v (frac 13 3) && qeq r (frac (-1) 4) && (q =? 12) | _ => false end) = true /\
  check (solve_mab M1 cfg_mse8 0 true None 5 X6 T6 0 env0) (fun oe => match fst oe with Found f v (Fin r) q =>
     (f =? 0) && (q =? 22) | _ => false end) = true.
Proof. repeat split; vm_compute; reflexivity. Qed.

(** ** C12. A returned split can be applied. *)
Theorem C12_mab_split_is_usable : forall M c eps repl budget batch data labels mir W e0 f v r q e1,
  solvable c data labels W -> 1 <= batch ->
  solve_mab M c eps repl budget batch data labels mir e0 = Ok (Found f v r q, e1) ->
  f < W /\ (exists E, candidates (s_bin c) (nbins c data) (s_minmax c) data f E /\ In v E) /\ below r mir.
Proof. exact mab_usable. Qed.
Print Assumptions C12_mab_split_is_usable.

(** ** C13 and C14. Termination and cost.  [OutOfFuel] is the model's non-termination: it is
    never the answer, whatever the number of arms. *)
Theorem C13_mab_terminates : forall M c eps repl budget batch data labels mir W e0,
  solvable c data labels W -> 1 <= batch ->
  solve_mab M c eps repl budget batch data labels mir e0 <> Err OutOfFuel.
Proof. exact mab_terminates. Qed.
Print Assumptions C13_mab_terminates.

Theorem C13_cost_without_replacement : forall M c eps budget batch data labels mir W e0 out e1,
  solvable c data labels W -> 1 <= batch ->
  solve_mab M c eps false budget batch data labels mir e0 = Ok (out, e1) ->
  exists E, (forall f, f < W -> candidates (s_bin c) (nbins c data) (s_minmax c) data f (E f)) /\
    sres_q out <= length data * length (busy_features W E).
Proof. exact mab_queries_norepl. Qed.
Print Assumptions C13_cost_without_replacement.

Theorem C14_cost_with_replacement : forall M c eps budget batch data labels mir W e0 out e1,
  solvable c data labels W -> 1 <= batch ->
  solve_mab M c eps true budget batch data labels mir e0 = Ok (out, e1) ->
  sres_q out <= 2 * length data * (W * s_nb c).
Proof. exact mab_queries_repl. Qed.
Print Assumptions C14_cost_with_replacement.

(** ** C15. Uninitialised memory.  With more than five arms the answer does not depend on
    it; with at most five it does. *)
Theorem C15_memory_irrelevant_partial : forall M c eps repl budget batch data labels mir W e0 out e1 E mem,
  solvable c data labels W -> 1 <= batch ->
  (forall f, f < W -> candidates (s_bin c) (nbins c data) (s_minmax c) data f (E f)) -> 5 < arm_count W E ->
  solve_mab M c eps repl budget batch data labels mir e0 = Ok (out, e1) ->
  solve_mab M c eps repl budget batch data labels mir (with_memory e0 mem) = Ok (out, with_memory e1 mem).
Proof. exact mab_memory. Qed.
Print Assumptions C15_memory_irrelevant_partial.

Definition garbage (q : Qc) : nat -> junk := fun _ =>
  {| j_est := fun _ _ => Fin q; j_lcb := fun _ _ => NaN; j_ucb := fun _ _ => NaN |}.
(** Four arms: with one memory content a split with reduction -7 is returned, with
    another one "no split"; neither costs a query. *)
Theorem C15_few_arms_refuted : exists c data labels W m1 m2 f v e1 e2,
  solvable c data labels W /\ candidates (s_bin c) (nbins c data) (s_minmax c) data f [z 1; z 6] /\
  solve_mab M1 c 0 false None 3 data labels 0 (with_memory env0 m1) = Ok (Found f v (Fin (z (-7))) 0, e1) /\
  solve_mab M1 c 0 false None 3 data labels 0 (with_memory env0 m2) = Ok (NoSplit 0, e2).
Proof.
  exists cfg_gini4, X6, Y6, 2, (garbage (z (-7))), (garbage (z 7)).
  assert (A : exists v e1, solve_mab M1 cfg_gini4 0 false None 3 X6 Y6 0 (with_memory env0 (garbage (z (-7)))) = Ok (Found 0 v (Fin (z (-7))) 0, e1)).
  { vm_compute. do 2 eexists. reflexivity. }
  assert (B : exists e2, solve_mab M1 cfg_gini4 0 false None 3 X6 Y6 0 (with_memory env0 (garbage (z 7))) = Ok (NoSplit 0, e2)).
  { vm_compute. eexists. reflexivity. }
  destruct A as [v [e1 A]], B as [e2 B]. exists 0, v, e1, e2. split; [apply mab_solvable|]. split; [|auto].
  exists (z 1), (z 6). split.
  - split; (split; [cbn; tauto|]); intros x I; cbn in I; repeat (destruct I as [<-|I]; [vm_compute; discriminate|]); destruct I.
  - right. split; [discriminate|]. reflexivity.
Qed.
Print Assumptions C15_few_arms_refuted.

(** ** C16. When one batch covers the data, the answer is a best one, at the cost of EXACT. *)
Theorem C16_full_batch_is_optimal : forall M c eps repl budget batch data labels mir W e0 out e1,
  solvable c data labels W -> length data <= batch ->
  solve_mab M c eps repl budget batch data labels mir e0 = Ok (out, e1) ->
  exists E, (forall f, f < W -> candidates (s_bin c) (nbins c data) (s_minmax c) data f (E f)) /\
    (5 < arm_count W E ->
       best_answer (reduction (impurity M c) (combine data labels)) mir W E out /\
       sres_q out = length data * length (busy_features W E)).
Proof. exact mab_full. Qed.
Print Assumptions C16_full_batch_is_optimal.

Theorem C16_full_batch_like_exact : forall M c eps repl budget batch data labels mir W e0 e0' out e1 out' e1' E,
  solvable c data labels W -> s_bin c = LINEAR -> length data <= batch ->
  (forall f, f < W -> candidates (s_bin c) (nbins c data) (s_minmax c) data f (E f)) -> 5 < arm_count W E ->
  solve_mab M c eps repl budget batch data labels mir e0 = Ok (out, e1) ->
  solve_exactly M c data labels mir e0' = Ok (out', e1') -> same_quality out out'.
Proof. exact mab_full_like_exact. Qed.
Print Assumptions C16_full_batch_like_exact.

(** ** C71. What happens instead of C17: Gini, LINEAR bins, at least two classes: exactly
    one batch is drawn, whatever the data. *)
Theorem C71_gini_draws_one_batch : forall M c eps repl budget batch data labels mir W e0 out e1 E,
  solvable c data labels W -> 1 <= batch -> s_class c = true -> s_bin c = LINEAR ->
  (forall f lo hi r, f < W -> range_of (s_minmax c) data f lo hi -> In r data -> (nth f r 0 <= hi)%Qc) ->
  2 <= length (nodup Qc_eq_dec labels) ->
  (forall f, f < W -> candidates (s_bin c) (nbins c data) (s_minmax c) data f (E f)) -> 5 < arm_count W E ->
  solve_mab M c eps repl budget batch data labels mir e0 = Ok (out, e1) ->
  sres_q out = Nat.min batch (length data) * length (busy_features W E).
Proof. exact mab_one_round. Qed.
Print Assumptions C71_gini_draws_one_batch.

Example C71_hypotheses :
  (forall f lo hi r, f < 2 -> range_of (s_minmax cfg_gini8) X6 f lo hi -> In r X6 -> (nth f r 0 <= hi)%Qc) /\
  2 <= length (nodup Qc_eq_dec Y6).
Proof.
  split; [|vm_compute; lia]. intros f lo hi r _ [_ [_ H]] I. apply H. apply in_map_iff. exists r. auto.
Qed.

(** ** C17. The loop gives up although more than five arms overlap, rows are left, there is
    no budget and the answer is a split. *)
Definition X10 : list (list Qc) := map (fun i => [z i; z i]) [0;1;2;3;4;5;6;7;8;9]%Z.
Definition Y10 : list Qc := map z [0;1;0;1;0;1;0;1;1;1]%Z.
Definition cfg_gini12 : scfg := {| s_class := true; s_measure := GINI; s_bin := LINEAR; s_nb := 6; s_minmax := None; s_dd := None |}.
(** The arm's interval is finite and overlaps the interval of every other arm from below. *)
Definition unsettled (W B : nat) (s : mstate) (a : nat * nat) : bool :=
  match ms_lcb s (fst a) (snd a) with
  | Fin l => forallb (fun f => forallb (fun b => match ms_ucb s f b with Fin u => qle l u | _ => true end) (seq 0 B)) (seq 0 W)
  | _ => false
  end.
Lemma check_ex {A} (r : res A) p : check r p = true -> exists a, r = Ok a /\ p a = true.
Proof. destruct r as [a|]; [|discriminate]. exists a. auto. Qed.
Theorem C17_stops_while_arms_overlap_refuted : exists c data labels W mh s i,
  solvable c data labels W /\
  make_histograms (s_class c) data labels (s_minmax c) (s_dd c) (s_bin c) (s_nb c) (e_np env0) = Ok mh /\
  mab_loop M1 (mab_cfg c 0 false None 8 data labels 0 W) (mab_fuel W (s_nb c) (length data))
    (mab_init c false data W (e_mem env0 0) mh (e_gen env0)) = Ok s /\
  (exists l, NoDup l /\ 5 < length l /\ forall a, In a l -> unsettled W (s_nb c) s a = true) /\
  (exists p, ms_pop s = Some p /\ In i p) /\
  (exists f v r q e1, solve_mab M1 c 0 false None 8 data labels 0 env0 = Ok (Found f v (Fin r) q, e1) /\ (r < 0)%Qc).
Proof.
  assert (A : check (make_histograms true X10 Y10 None None LINEAR 6 (e_np env0)) (fun mh =>
    check (mab_loop M1 (mab_cfg cfg_gini12 0 false None 8 X10 Y10 0 2) (mab_fuel 2 6 10)
      (mab_init cfg_gini12 false X10 2 (e_mem env0 0) mh (e_gen env0))) (fun s =>
        forallb (unsettled 2 6 s) [(0,1);(0,2);(0,3);(1,1);(1,2);(1,3)] &&
        match ms_pop s with Some (i :: _) => i =? 8 | _ => false end)) = true) by (vm_compute; reflexivity).
  assert (B : check (solve_mab M1 cfg_gini12 0 false None 8 X10 Y10 0 env0) (fun oe =>
    match fst oe with Found _ _ (Fin r) _ => qlt r 0 | _ => false end) = true) by (vm_compute; reflexivity).
  apply check_ex in A. destruct A as [mh [EM A]]. apply check_ex in A. destruct A as [s [EL A]]. apply check_ex in B. destruct B as [[out e1] [ES B]].
  apply andb_true_iff in A. destruct A as [A1 A2].
  exists cfg_gini12, X10, Y10, 2, mh, s, 8. split.
  { constructor; cbn [s_bin s_nb s_minmax s_dd s_class s_measure cfg_gini12]; auto; [|discriminate].
    intros r I. apply in_map_iff in I. destruct I as [i [<- _]]. reflexivity. }
  split; [exact EM|]. split; [exact EL|]. split.
  { exists [(0,1);(0,2);(0,3);(1,1);(1,2);(1,3)]. split; [|split].
    - repeat (constructor; [cbn; intuition discriminate|]). constructor.
    - cbn. lia.
    - intros a I. rewrite forallb_forall in A1. now apply A1. }
  split.
  { destruct (ms_pop s) as [[|i p]|]; try discriminate A2. apply Nat.eqb_eq in A2. subst i. exists (8 :: p). split; [reflexivity|]. left. reflexivity. }
  cbn [fst] in B. destruct out as [f v r q|]; [|discriminate B]. destruct r as [r| | |]; try discriminate B. exists f, v, r, q, e1.
  split; [exact ES|]. apply qlt_spec; exact B.
Qed.
Print Assumptions C17_stops_while_arms_overlap_refuted.

(** ** C18. The budget: without replacement the overshoot is less than one round; with
    replacement a round can cost as many queries as there are rows, per feature. *)
Theorem C18_budget_overshoot : forall M c eps repl b batch data labels mir W e0 out e1,
  solvable c data labels W -> 1 <= batch ->
  solve_mab M c eps repl (Some b) batch data labels mir e0 = Ok (out, e1) ->
  exists E, (forall f, f < W -> candidates (s_bin c) (nbins c data) (s_minmax c) data f (E f)) /\
   (Z.of_nat (sres_q out) <= Z.max 0 (b - 1) +
     Z.of_nat (length (busy_features W E) * (if repl then Nat.max (length data) batch else batch)))%Z.
Proof. exact mab_budget. Qed.
Print Assumptions C18_budget_overshoot.

Theorem C18_with_replacement_refuted : exists c data labels W b batch f v r q e1,
  solvable c data labels W /\
  solve_mab M1 c 0 true (Some b) batch data labels 0 env0 = Ok (Found f v r q, e1) /\
  (b + Z.of_nat (W * batch) < Z.of_nat q)%Z.
Proof.
  assert (A : exists f v r e1, solve_mab M1 cfg_mse8 0 true (Some 11%Z) 5 X6 T6 0 env0 = Ok (Found f v r 22, e1)).
  { vm_compute. do 4 eexists. reflexivity. }
  destruct A as [f [v [r [e1 A]]]]. exists cfg_mse8, X6, T6, 2, 11%Z, 5, f, v, r, 22, e1.
  split; [apply mab_solvable|]. split; [exact A|]. cbn. lia.
Qed.
Print Assumptions C18_with_replacement_refuted.

(** ** C19. Estimates are attached to the right arms.  One batch, for any list of live arms
    grouped by feature; and, at any moment of any run, the estimate of every arm is the
    impurity change of some sample of rows at that very arm, and the live arms are grouped
    by feature. *)
Theorem C19_estimates_attached_to_their_arms : forall M c data labels W mh np acc batch pop t r,
  solvable c data labels W -> s_bin c <> IDENTITY -> s_class c = true ->
  make_histograms (s_class c) data labels (s_minmax c) (s_dd c) (s_bin c) (s_nb c) np = Ok mh ->
  by_feature acc -> NoDup acc ->
  (forall f b, In (f, b) acc -> exists v, nth_error (edges_of (mh_hists mh) f) b = Some v) ->
  sample_targets M (s_measure c) data labels acc (mh_hists mh) batch pop t = Ok r ->
  exists I, (forall i, In i I -> i < length data) /\ length (sr_ir r) = length acc /\
    forall i f b v, nth_error acc i = Some (f, b) -> nth_error (edges_of (mh_hists mh) f) b = Some v ->
      nth_error (sr_ir r) i = Some (Fin (reduction (impurity M c) (picked data labels I) f v)).
Proof. exact targets_aligned. Qed.
Print Assumptions C19_estimates_attached_to_their_arms.

Theorem C19_every_run : forall M c eps repl budget batch data labels mir W np mh j gen fuel s,
  solvable c data labels W -> s_bin c <> IDENTITY -> 1 <= batch -> s_class c = true ->
  make_histograms (s_class c) data labels (s_minmax c) (s_dd c) (s_bin c) (s_nb c) np = Ok mh ->
  5 < arm_count W (edges_of (mh_hists mh)) ->
  mab_loop M (mab_cfg c eps repl budget batch data labels mir W) fuel (mab_init c repl data W j mh gen) = Ok s ->
  by_feature (ms_cand s) /\ NoDup (ms_cand s) /\
  forall f b v, f < W -> nth_error (edges_of (mh_hists mh) f) b = Some v ->
    exists I, some_rows data I /\ (repl = false -> NoDup I) /\
      ms_est s f b = Fin (reduction (impurity M c) (picked data labels I) f v).
Proof. exact loop_aligned. Qed.
Print Assumptions C19_every_run.

(** ** C72. What a split reported by MAB is worth: with more than five arms, the reported
    reduction is the true impurity change over some non-empty sample of the rows. *)
Theorem C72_mab_reports_a_sample_change : forall M c eps repl budget batch data labels mir W e0 out e1,
  solvable c data labels W -> 1 <= batch ->
  solve_mab M c eps repl budget batch data labels mir e0 = Ok (out, e1) ->
  exists E, (forall f, f < W -> candidates (s_bin c) (nbins c data) (s_minmax c) data f (E f)) /\
    (5 < arm_count W E ->
     match out with
     | Found f v r q => f < W /\ In v (E f) /\ exists x, r = Fin x /\ (x < mir)%Qc /\
         (s_class c = true -> exists I, some_rows data I /\ (repl = false -> NoDup I) /\
            x = reduction (impurity M c) (picked data labels I) f v)
     | NoSplit _ => True
     end).
Proof. exact mab_sampled. Qed.
Print Assumptions C72_mab_reports_a_sample_change.

(** ** C73. MAB answers. *)
Theorem C73_mab_answers : forall M c eps repl budget batch data labels mir W e0 E,
  solvable c data labels W -> s_bin c <> IDENTITY -> 1 <= batch ->
  (forall f, f < W -> candidates (s_bin c) (nbins c data) (s_minmax c) data f (E f)) ->
  5 < arm_count W E ->
  exists out e1, solve_mab M c eps repl budget batch data labels mir e0 = Ok (out, e1).
Proof. exact mab_answers. Qed.
Print Assumptions C73_mab_answers.

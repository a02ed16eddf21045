(** In classification a bandit tree splits each node on the best split of one batch of its rows. *)
From Coq Require Import List Arith Bool ZArith QArith Qcanon.
From Verif Require Import Base Num Rng Histogram Utils Criteria Solvers Tree Forest Spec SolverSpec TreeSpec TrainSpec ForestSpec BanditSpec BatchSpec BatchThms BatchTree Samples TreeWitness InvarWitness ForestWitness TrainWitness BudgetWitness BanditWitness BatchWitness.
Import ListNotations.
Local Open Scope nat_scope.

(** ** C179: one batch decides a split *)
Theorem C179_bandit_split : forall P M c a e t W, trainable c a W -> built P M c a e t -> forall id nd,
  tc_solver c = MAB -> tc_class c = true -> tc_bin c = LINEAR -> 1 <= tc_batch c -> bins_ok c -> ranges_cover c a ->
  node_at t id nd -> nd_left nd <> None ->
  5 < bins_at c (node_rows t id) * length (filter (scanned c a (node_rows t id)) (nd_feats nd)) ->
  exists J E s v f, batch_of (tc_batch c) (tc_repl c) (node_rows t id) J /\
    (forall f' s', nth_error (nd_feats nd) f' = Some s' -> thresholds c a (node_rows t id) s' (E f')) /\
    nd_sf nd = Some s /\ nd_sv nd = Some v /\ nth_error (nd_feats nd) f = Some s /\ In v (E f) /\
    nd_red nd = Some (Fin (split_change M c a J s v * (rat (length (node_rows t id)) / rat (length (train_rows a))))%Qc) /\
    (split_change M c a J s v < 0)%Qc /\
    (forall f' s' v', nth_error (nd_feats nd) f' = Some s' -> In v' (E f') -> (split_change M c a J s v <= split_change M c a J s' v')%Qc).
Proof. exact bandit_split. Qed.
Print Assumptions C179_bandit_split.
(** Without a budget or leaf limit in the way: every node that may be split has been through the search. *)
Theorem C179_bandit_searched : forall P M c a e t W, trainable c a W -> built P M c a e t -> forall id nd,
  tc_solver c = MAB -> tc_class c = true -> tc_bin c = LINEAR -> 1 <= tc_batch c -> bins_ok c -> ranges_cover c a ->
  ta_budget a = None -> tc_max_leaves c <> Some (length (t_leaves t)) -> node_at t id nd -> may_split c a t id ->
  5 < bins_at c (node_rows t id) * length (filter (scanned c a (node_rows t id)) (nd_feats nd)) ->
  exists J E, batch_of (tc_batch c) (tc_repl c) (node_rows t id) J /\
  (forall f' s', nth_error (nd_feats nd) f' = Some s' -> thresholds c a (node_rows t id) s' (E f')) /\
  ((exists s v f, nd_sf nd = Some s /\ nd_sv nd = Some v /\ nth_error (nd_feats nd) f = Some s /\ In v (E f) /\
     nd_red nd = Some (Fin (split_change M c a J s v * (rat (length (node_rows t id)) / rat (length (train_rows a))))%Qc) /\
     (split_change M c a J s v < 0)%Qc /\
     (forall f' s' v', nth_error (nd_feats nd) f' = Some s' -> In v' (E f') -> (split_change M c a J s v <= split_change M c a J s' v')%Qc)) \/
   (nd_sf nd = None /\ nd_red nd = None /\
     forall f' s' v', nth_error (nd_feats nd) f' = Some s' -> In v' (E f') -> (0 <= split_change M c a J s' v')%Qc)).
Proof. exact bandit_leaf. Qed.
Print Assumptions C179_bandit_searched.
(** The batch depends on the number of rows and the generator only: not on the data, the labels,
    the tolerance, the budget or how square roots and logarithms are rounded. *)
Theorem C179_drawn_first : forall N batch repl g, 1 <= N -> 1 <= batch ->
  exists I, length I = Nat.min batch N /\ (forall i, In i I -> i < N) /\ (repl = false -> NoDup I) /\ (N <= batch -> I = seq 0 N) /\
    forall M c eps budget data labels mir W e0 out e1 E, length data = N -> e_gen e0 = g ->
      solvable c data labels W -> s_class c = true -> s_bin c = LINEAR ->
      (forall f lo hi r, f < W -> range_of (s_minmax c) data f lo hi -> In r data -> (nth f r 0 <= hi)%Qc) ->
      2 <= length (nodup Qc_eq_dec labels) ->
      (forall f, f < W -> candidates (s_bin c) (nbins c data) (s_minmax c) data f (E f)) -> 5 < arm_count W E ->
      solve_mab M c eps repl budget batch data labels mir e0 = Ok (out, e1) ->
      best_answer (reduction (impurity M c) (picked data labels I)) mir W E out.
Proof. exact one_batch_decides. Qed.
Print Assumptions C179_drawn_first.
(** Twenty rows, batches of five: the root is split, on rows 7, 3, 1, 12 and 4; the gain it records is theirs and not that of its twenty rows. *)
Example C179_ex : trainable (band_cfg true MAB 2 5) (band_args 20) 1 /\ bins_ok (band_cfg true MAB 2 5) /\ ranges_cover (band_cfg true MAB 2 5) (band_args 20) /\ batch_of 5 false (seq 0 20) five /\
  check (run_with P1 M0 (band_cfg true MAB 2 5) (band_args 20) env0) (root_from (band_cfg true MAB 2 5) (band_args 20) five) = true.
Proof. split; [apply band_args_trainable; repeat constructor|]. split; [right; cbn; repeat constructor|]. split; [exact Logic.I|]. split; [exact five_batch|vm_compute; reflexivity]. Qed.
(** So a tree may stay a single leaf although one of its thresholds separates the classes. *)
Theorem C179_separable_refuted : exists P M c a e t W, trainable c a W /\ built P M c a e t /\ tc_solver c = MAB /\ tc_class c = true /\ tc_bin c = LINEAR /\ 1 <= tc_batch c /\ bins_ok c /\ ranges_cover c a /\
  ta_budget a = None /\ tc_max_leaves c = None /\ tc_min_imp c = 0%Qc /\ may_split c a t 0 /\ t_splits t = 0 /\
  exists s E v y, In s (train_feats a) /\ thresholds c a (node_rows t 0) s E /\ In v E /\ forall i, In i (node_rows t 0) -> nth i (ta_labels a) 0%Qc = y <-> (cell (ta_data a) i s <= v)%Qc.
Proof. exact separable_missed. Qed.
Print Assumptions C179_separable_refuted.

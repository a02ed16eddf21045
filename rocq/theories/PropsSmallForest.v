(** The bandit search in the trees of a forest. *)
From Coq Require Import List Arith Bool ZArith QArith Qcanon.
From Verif Require Import Base Num Rng Histogram Utils Criteria Solvers Tree Forest Spec SolverSpec TreeSpec TrainSpec ForestSpec BanditSpec BatchSpec SmallSpec SmallForest Samples TreeWitness InvarWitness ForestWitness TrainWitness BudgetWitness BanditWitness SmallForestWitness.
Import ListNotations.
Local Open Scope nat_scope.

(** ** C181: every tree of a forest that searches with bandits *)
Theorem C181_small_forest : forall M P c f arg h e f' h' e' data W, forest_trainable c f arg h data W -> forest_fit M P c f arg h e = Ok (f', h', e') -> fc_solver c = MAB ->
  fc_bin c = LINEAR \/ fc_bin c = RANDOM -> fc_log_split c = false -> 6 <= fc_nb c -> length data <= fc_batch c ->
  forall tc t, In (tc, t) (f_trees f') -> exists a e0 t0, trainable tc a W /\ built P M tc a e0 t0 /\ warmed tc t0 t /\ tree_problem c f arg h data W a /\
  (forall id nd, node_at t0 id nd -> nd_left nd <> None ->
    exists s v E j, nd_sf nd = Some s /\ nd_sv nd = Some v /\ nth_error (nd_feats nd) j = Some s /\ In v (E j) /\
      nd_red nd = Some (Fin (split_change M tc a (node_rows t0 id) s v * nd_prop nd)%Qc) /\ (split_change M tc a (node_rows t0 id) s v < 0)%Qc /\
      (forall j' s', nth_error (nd_feats nd) j' = Some s' -> thresholds tc a (node_rows t0 id) s' (E j')) /\
      (forall j' s' v', nth_error (nd_feats nd) j' = Some s' -> In v' (E j') ->
         (split_change M tc a (node_rows t0 id) s v <= split_change M tc a (node_rows t0 id) s' v')%Qc)) /\
  (forall id nd, f_budget f = None -> fc_max_leaves c <> Some (length (t_leaves t0)) -> In id (t_leaves t0) -> node_at t0 id nd ->
    below_depth tc (nd_depth nd) -> fc_min_split c < length (node_rows t0 id) -> varied (labels_at (ta_labels a) (node_rows t0 id)) ->
    exists E, (forall j' s', nth_error (nd_feats nd) j' = Some s' -> thresholds tc a (node_rows t0 id) s' (E j')) /\
      (forall j' s' v', nth_error (nd_feats nd) j' = Some s' -> In v' (E j') ->
         let gain := split_change M tc a (node_rows t0 id) s' v' in
         (0 <= gain)%Qc \/ (fc_min_imp c <= nd_prop nd * gain)%Qc \/
         (fc_min_imp c <= nd_prop nd * gain * (rat (length (node_rows t0 id)) / rat (length data)))%Qc)) /\
  leaf_impurity M tc a t0 = (tree_impurity M tc (train_labels a) + split_changes t0)%Qc /\
  exists ids, NoDup ids /\ (forall id, In id ids -> may_split tc a t0 id) /\
    t_queries t = list_sum (map (fun id => full_price tc a (node_rows t0 id) (node_feats t0 id)) ids) /\
    (f_budget f = None -> fc_max_leaves c <> Some (length (t_leaves t0)) -> forall id, may_split tc a t0 id -> In id ids).
Proof. exact small_forest. Qed.
Print Assumptions C181_small_forest.
Theorem C181_batch_forest : forall M P c f arg h e f' h' e' data W, forest_trainable c f arg h data W -> forest_fit M P c f arg h e = Ok (f', h', e') -> fc_solver c = MAB ->
  fc_class c = true -> fc_bin c = LINEAR -> 1 <= fc_batch c -> fc_log_split c = true \/ 2 <= fc_nb c ->
  forall tc t, In (tc, t) (f_trees f') -> exists a e0 t0, trainable tc a W /\ built P M tc a e0 t0 /\ warmed tc t0 t /\ tree_problem c f arg h data W a /\
  forall id nd, node_at t0 id nd -> nd_left nd <> None ->
  5 < bins_at tc (node_rows t0 id) * length (filter (scanned tc a (node_rows t0 id)) (nd_feats nd)) ->
  exists J E s v j, batch_of (fc_batch c) (fc_repl c) (node_rows t0 id) J /\
    (forall j' s', nth_error (nd_feats nd) j' = Some s' -> thresholds tc a (node_rows t0 id) s' (E j')) /\
    nd_sf nd = Some s /\ nd_sv nd = Some v /\ nth_error (nd_feats nd) j = Some s /\ In v (E j) /\
    nd_red nd = Some (Fin (split_change M tc a J s v * (rat (length (node_rows t0 id)) / rat (length (train_rows a))))%Qc) /\
    (split_change M tc a J s v < 0)%Qc /\
    (forall j' s' v', nth_error (nd_feats nd) j' = Some s' -> In v' (E j') -> (split_change M tc a J s v <= split_change M tc a J s' v')%Qc).
Proof. exact batch_forest. Qed.
Print Assumptions C181_batch_forest.
(** Three bootstrapped trees on six rows: with batches of six both searches cost 36, with batches of two the bandit search costs 16. *)
Example C181_ex : forest_trainable (fc_small MAB 6) (fst (start P1 (fc_small MAB 6) Y6)) (None, None) (heap_of Y6) X6 2 /\ length X6 <= fc_batch (fc_small MAB 6) /\
  map fcost [fc_small MAB 6; fc_small EXACT 6; fc_small MAB 2] = [Some (3, 36); Some (3, 36); Some (3, 16)].
Proof. split; [apply small_forest_trainable|]. split; [cbn; repeat constructor|vm_compute; reflexivity]. Qed.

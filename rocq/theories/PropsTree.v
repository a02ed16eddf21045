(** Properties of decision trees (C20-C37, C74-C76).  The vocabulary ([built], [lands],
    [train_rows], [trainable], [split_change], ...) is in TreeSpec.v. *)
From Coq Require Import List Arith Bool ZArith QArith Qcanon Lia Permutation.
From Verif Require Import Base Num Rng Histogram Utils Criteria Solvers Tree Samples Spec SolverSpec TreeSpec NumFacts CountFacts TreeThms Terminate TreeTotal TreeMore BestFirst TreeValue TreeArgs TreeWitness.
Import ListNotations.
Local Open Scope nat_scope.

(** ** Structure *)
Theorem C20_leaves_partition_rows : forall P M c a e t, built P M c a e t -> train_rows a <> [] ->
  Permutation (flat_map (node_rows t) (t_leaves t)) (train_rows a) /\ NoDup (t_leaves t) /\
  (forall id, In id (t_leaves t) -> node_rows t id <> []) /\
  (forall id, In id (t_leaves t) <-> exists nd, node_at t id nd /\ nd_left nd = None /\ nd_right nd = None).
Proof. exact fitted_partition. Qed.
Print Assumptions C20_leaves_partition_rows.

Theorem C21_rows_routed_to_their_leaf : forall P M c a e t, built P M c a e t -> train_rows a <> [] ->
  (forall leaf i, In leaf (t_leaves t) -> In i (node_rows t leaf) -> lands t (nth i (ta_data a) []) 0 leaf) /\
  (forall i, In i (train_rows a) -> exists leaf, In leaf (t_leaves t) /\ In i (node_rows t leaf) /\ lands t (nth i (ta_data a) []) 0 leaf).
Proof. exact (fun P M c a e t HB NE => conj (fitted_rows_routed P M c a e t HB NE) (fitted_row_found P M c a e t HB NE)). Qed.
Print Assumptions C21_rows_routed_to_their_leaf.

Theorem C22_every_point_reaches_one_leaf : forall P M c a e t, built P M c a e t -> train_rows a <> [] ->
  forall x, (forall f, In f (train_feats a) -> f < length x) ->
  exists leaf, lands t x 0 leaf /\ In leaf (t_leaves t) /\ (forall other, lands t x 0 other -> other = leaf) /\
    walk (t_nodes t) (length (t_nodes t)) 0 x = Ok leaf.
Proof. exact fitted_routes. Qed.
Print Assumptions C22_every_point_reaches_one_leaf.

Theorem C22_predict_answers : forall P M c a e t, built P M c a e t -> train_rows a <> [] ->
  forall x, (tc_class c = true -> good_classes (tc_classes c)) -> (forall f, In f (train_feats a) -> f < length x) ->
  exists p t', tree_predict c t x = Ok (p, t').
Proof. exact fitted_answers. Qed.
Print Assumptions C22_predict_answers.
Example good_classes_ex : good_classes (tc_classes cfg_class).
Proof.
  split; [|split].
  - repeat constructor; cbn; intros I; repeat (destruct I as [I|I]; [discriminate I|]); destruct I.
  - repeat constructor; cbn; intros I; repeat (destruct I as [I|I]; [discriminate I|]); destruct I.
  - intros k i [E|[E|[]]]; injection E as _ <-; cbn; lia.
Qed.
Example point_ex Y : forall f, In f (train_feats (targs_of Y)) -> f < length [z 9; z (-3)].
Proof. cbn. intros f I. repeat (destruct I as [<-|I]; [lia|]). destruct I. Qed.

Theorem C23_depth_limit : forall P M c a e t, built P M c a e t -> train_rows a <> [] ->
  (forall id nd, node_at t id nd -> at_level t id (nd_depth nd) /\ within_depth c (nd_depth nd)) /\
  exists d, get_depth t = Ok d /\ within_depth c d /\
    (exists leaf, In leaf (t_leaves t) /\ at_level t leaf d) /\
    (forall id nd, node_at t id nd -> nd_depth nd <= d).
Proof. exact fitted_depth. Qed.
Print Assumptions C23_depth_limit.

Theorem C24_leaf_limit : forall P M c a e t, built P M c a e t -> train_rows a <> [] ->
  forall m, tc_max_leaves c = Some m -> length (t_leaves t) <= m.
Proof. exact fitted_leaf_limit. Qed.
Print Assumptions C24_leaf_limit.
(** At no point of the loop are there more leaves than the limit, so the exception of
    tree_base.py:189 is never raised. *)
Theorem C24_never_too_many_leaves : forall P M c a e t0 e0 d t' e' m, tree_new P c a e = Ok (t0, e0) -> train_rows a <> [] ->
  tc_max_leaves c = Some m -> 1 <= m -> loop_state M c (start_tree t0 d) e0 t' e' -> length (t_leaves t') <= m.
Proof. exact leaf_limit_states. Qed.
Print Assumptions C24_never_too_many_leaves.
Theorem C24_zero_leaves_raises : forall P M c a e t, train_rows a <> [] -> tc_max_leaves c = Some 0 -> ~ built P M c a e t.
Proof. exact leaf_limit_zero. Qed.
Print Assumptions C24_zero_leaves_raises.

Theorem C25_only_eligible_nodes_split : forall P M c a e t, built P M c a e t -> train_rows a <> [] ->
  forall id nd, node_at t id nd -> nd_left nd <> None ->
  tc_min_split c < length (nd_idcs nd) /\ varied (labels_at (ta_labels a) (nd_idcs nd)) /\ below_depth c (nd_depth nd) /\
  (exists x, nd_red nd = Some x /\ xlt x (Fin 0) = true /\ xlt x (Fin (tc_min_imp c)) = true) /\
  (exists s, nd_sf nd = Some s /\ In s (train_feats a)).
Proof. exact fitted_inner. Qed.
Print Assumptions C25_only_eligible_nodes_split.

Theorem C26_tree_shape : forall P M c a e t, built P M c a e t -> train_rows a <> [] ->
  (forall id nd, node_at t id nd -> (nd_left nd = None /\ nd_right nd = None) \/
     exists l r, nd_left nd = Some l /\ nd_right nd = Some r /\ l <> r /\
       (exists nl nr, node_at t l nl /\ node_at t r nr /\ nd_parent nl = Some id /\ nd_parent nr = Some id)) /\
  length (t_leaves t) = S (t_splits t) /\ length (t_nodes t) = S (2 * t_splits t).
Proof. exact fitted_shape. Qed.
Print Assumptions C26_tree_shape.
(** The children hold the rows on either side of the split, in order. *)
Theorem C26_children_rows : forall P M c a e t, built P M c a e t -> train_rows a <> [] ->
  forall id nd, node_at t id nd -> nd_left nd <> None -> exists l r s v,
  nd_left nd = Some l /\ nd_right nd = Some r /\ id < l /\ id < r /\ l <> r /\ nd_sf nd = Some s /\ nd_sv nd = Some v /\
  (exists nl nr, node_at t l nl /\ node_at t r nr) /\ In s (nd_feats nd) /\
  node_rows t l = filter (fun i => qle (cell (ta_data a) i s) v) (node_rows t id) /\
  node_rows t r = filter (fun i => qlt v (cell (ta_data a) i s)) (node_rows t id).
Proof. exact split_node. Qed.
Print Assumptions C26_children_rows.

Theorem C27_node_proportion : forall P M c a e t, built P M c a e t -> train_rows a <> [] ->
  forall id nd, node_at t id nd ->
  nd_prop nd = (Nq (length (node_rows t id)) / Nq (length (train_rows a)))%Qc /\ nd_n nd = length (node_rows t id).
Proof. exact fitted_prop. Qed.
Print Assumptions C27_node_proportion.

(** ** Prediction *)
Theorem C28_tree_classification : forall P M c a e t, built P M c a e t -> train_rows a <> [] ->
  forall x label probs t', tc_class c = true -> good_classes (tc_classes c) -> tree_predict c t x = Ok (PClass label probs, t') ->
  exists leaf, lands t x 0 leaf /\ let ys := labels_at (ta_labels a) (node_rows t leaf) in
    length probs = length (tc_classes c) /\
    (forall k i, In (k, i) (tc_classes c) -> nth_error probs i = Some (fraction k ys)) /\
    In label (map fst (tc_classes c)) /\ (forall k, In k (map fst (tc_classes c)) -> (fraction k ys <= fraction label ys)%Qc) /\
    (forall p, In p probs -> (0 <= p)%Qc /\ (p <= 1)%Qc) /\ total probs = 1%Qc.
Proof. exact fitted_class. Qed.
Print Assumptions C28_tree_classification.

Theorem C29_tree_regression : forall P M c a e t, built P M c a e t -> train_rows a <> [] ->
  forall x v t', tc_class c = false -> tree_predict c t x = Ok (PReg v, t') ->
  exists leaf, lands t x 0 leaf /\ v = mean (labels_at (ta_labels a) (node_rows t leaf)) /\
    forall lo hi, (forall i, In i (train_rows a) -> (lo <= nth i (ta_labels a) 0)%Qc /\ (nth i (ta_labels a) 0 <= hi)%Qc) -> (lo <= v)%Qc /\ (v <= hi)%Qc.
Proof. exact fitted_reg. Qed.
Print Assumptions C29_tree_regression.
Example C28_C29_ex :
  check (do t <- run cfg_class (targs_of Y6); tree_predict cfg_class t [z 9; z (-3)])
    (fun r => match fst r with PClass l ps => qeq l (z 1) && (length ps =? 2) | _ => false end) = true /\
  check (do t <- run cfg_reg (targs_of T6); tree_predict cfg_reg t [z 9; z (-3)])
    (fun r => match fst r with PReg v => negb (qeq v 0%Qc) | _ => false end) = true.
Proof. split; vm_compute; reflexivity. Qed.

Theorem C30_prediction_has_no_memory : forall P M c a e t, built P M c a e t -> train_rows a <> [] ->
  forall xs ps t' x, tree_predict_batch c t xs = Ok (ps, t') -> answer (tree_predict c t' x) = answer (tree_predict c t x).
Proof. exact fitted_memoryless. Qed.
Print Assumptions C30_prediction_has_no_memory.
Example C30_ex :
  check (do t <- run cfg_class (targs_of Y6); tree_predict_batch cfg_class t [[z 9; z (-3)]; [z 1; z 1]]) (fun r => length (fst r) =? 2) = true.
Proof. vm_compute; reflexivity. Qed.

(** ** Cost *)
Theorem C31_tree_query_accounting : forall P M c a e t, built P M c a e t -> train_rows a <> [] ->
  t_queries t = list_sum (map nd_queries (t_nodes t)) /\
  match ta_budget a with
  | None => t_budget t = None
  | Some b => exists r, t_budget t = Some r /\ (Z.of_nat (t_queries t) + r = b)%Z
  end.
Proof. exact fitted_queries. Qed.
Print Assumptions C31_tree_query_accounting.

Theorem C32_tree_budget : forall P M c a e t, built P M c a e t -> train_rows a <> [] ->
  forall b, ta_budget a = Some b -> t_queries t = 0 \/
  exists id nd, node_at t id nd /\ (Z.of_nat (t_queries t) - Z.of_nat (nd_queries nd) < b)%Z.
Proof. exact fitted_budget. Qed.
Print Assumptions C32_tree_budget.
Theorem C32_no_budget_single_leaf : forall P M c a e t b, built P M c a e t -> ta_budget a = Some b -> (b <= 0)%Z -> train_rows a <> [] ->
  t_leaves t = [0] /\ t_splits t = 0 /\ t_queries t = 0.
Proof. exact broke_stump. Qed.
Print Assumptions C32_no_budget_single_leaf.
Example C32_ex :
  check (run cfg_reg (with_budget (targs_of T6) 8)) (fun t => (1 <=? t_splits t) && (8 <? t_queries t)) = true /\
  check (run cfg_reg (with_budget (targs_of T6) 0)) (fun t => t_splits t =? 0) = true.
Proof. split; vm_compute; reflexivity. Qed.

Theorem C33_fitting_terminates : forall M c, (tc_solver c = MAB -> 1 <= tc_batch c) -> forall P a e t0 e0,
  tree_new P c a e = Ok (t0, e0) -> tree_fit M c t0 (None, None) e0 <> Err OutOfFuel.
Proof. exact built_terminates. Qed.
Print Assumptions C33_fitting_terminates.
Theorem C33_fewer_splits_than_rows : forall P M c a e t, built P M c a e t -> train_rows a <> [] -> t_splits t < length (train_rows a).
Proof. exact fitted_splits. Qed.
Print Assumptions C33_fewer_splits_than_rows.

(** ** Success *)
Theorem C34_exact_identity_never_raises : forall P M c a W e, trainable c a W -> tc_solver c = EXACT -> tc_bin c = IDENTITY ->
  exists t, built P M c a e t.
Proof. exact exact_identity_fits. Qed.
Print Assumptions C34_exact_identity_never_raises.

Theorem C35_linear_fits_partial : forall P M c a W e, trainable c a W -> tc_solver c = EXACT -> enough_bins c a 2 ->
  exists t, built P M c a e t.
Proof. exact exact_fits. Qed.
Print Assumptions C35_linear_fits_partial.
Theorem C35_linear_refuted : exists P M c a e t0 e0, tc_bin c = LINEAR /\ trainable c a 1 /\ tree_new P c a e = Ok (t0, e0) /\
  tree_fit M c t0 (None, None) e0 = Err IndexError.
Proof. exact linear_clash. Qed.
Print Assumptions C35_linear_refuted.

Theorem C36_fit_arguments_refuted : exists P M c X Y X' Y' e t0 e0 t e1 v t',
  tree_new P c {| ta_data := X; ta_labels := Y; ta_budget := None; ta_dd := None; ta_seed := 7; ta_idcs := None; ta_feats := None |} e = Ok (t0, e0) /\
  tree_fit M c t0 (Some X', Some Y') e0 = Ok (t, e1) /\ length X' = length Y' /\
  tree_predict c t (nth 0 X' []) = Ok (PReg v, t') /\ (forall y, In y Y' -> (y < v)%Qc).
Proof. exact fit_ignores_arguments. Qed.
Print Assumptions C36_fit_arguments_refuted.

Theorem C36_root_partial : forall M P c a e t0 e0 X Y t e1 t' e1' nd nd', tree_new P c a e = Ok (t0, e0) ->
  tree_fit M c t0 (Some X, Some Y) e0 = Ok (t, e1) -> tree_fit M c t0 (None, None) e0 = Ok (t', e1') ->
  node_at t 0 nd -> node_at t' 0 nd' ->
  node_rows t 0 = node_rows t' 0 /\ nd_counts nd = nd_counts nd' /\ nd_sf nd = nd_sf nd' /\ nd_sv nd = nd_sv nd' /\ nd_red nd = nd_red nd' /\ nd_queries nd = nd_queries nd'.
Proof. exact root_of_constructor. Qed.
Print Assumptions C36_root_partial.
Theorem C36_same_arguments_partial : forall M P c a e t0 e0, tree_new P c a e = Ok (t0, e0) ->
  tree_fit M c t0 (Some (ta_data a), Some (ta_labels a)) e0 = tree_fit M c t0 (None, None) e0 /\
  (forall X, tree_fit M c t0 (Some X, None) e0 = Err GenericException) /\ (forall Y, tree_fit M c t0 (None, Some Y) e0 = Err GenericException).
Proof. exact (fun M P c a e t0 e0 N => conj (same_arguments M P c a e t0 e0 N) (conj (fun X => proj1 (one_argument M c t0 e0 X [])) (fun Y => proj2 (one_argument M c t0 e0 [] Y)))). Qed.
Print Assumptions C36_same_arguments_partial.
Example C36_ex : match tree_new P0 cfg_reg8 args8 env0 with
  | Ok (t0, e0) => match tree_fit M0 cfg_reg8 t0 (Some (rev (ta_data args8)), Some (rev (ta_labels args8))) e0, tree_fit M0 cfg_reg8 t0 (None, None) e0 with
      | Ok (t, _), Ok (t', _) => (3 <=? length (t_nodes t)) && (3 <=? length (t_nodes t'))
      | _, _ => false end
  | Err _ => false end = true.
Proof. vm_compute. reflexivity. Qed.

Theorem C37_default_depth_refuted : exists P M c a e t0 e0, trainable (with_max_depth c DInf) a 2 /\
  tc_max_depth c = DNone /\ varied (labels_at (ta_labels a) (train_rows a)) /\ tree_new P c a e = Ok (t0, e0) /\ tree_fit M c t0 (None, None) e0 = Err TypeError.
Proof. exact no_depth_run. Qed.
Print Assumptions C37_default_depth_refuted.

(** ** What exact trees compute *)
Theorem C74_exact_splits_are_optimal : forall P M c a e t W, trainable c a W -> built P M c a e t ->
  forall id nd, tc_solver c = EXACT -> bins_ok c -> node_at t id nd -> nd_left nd <> None ->
  exists s v E f, nd_sf nd = Some s /\ nd_sv nd = Some v /\ nth_error (nd_feats nd) f = Some s /\ In v (E f) /\
    nd_red nd = Some (Fin (split_change M c a (node_rows t id) s v * nd_prop nd)%Qc) /\ (split_change M c a (node_rows t id) s v < 0)%Qc /\
    (forall f' s', nth_error (nd_feats nd) f' = Some s' -> thresholds c a (node_rows t id) s' (E f')) /\
    (forall f' s' v', nth_error (nd_feats nd) f' = Some s' -> In v' (E f') ->
       (split_change M c a (node_rows t id) s v <= split_change M c a (node_rows t id) s' v')%Qc).
Proof. exact fitted_optimal. Qed.
Print Assumptions C74_exact_splits_are_optimal.
Example C74_ex : bins_ok cfg_class /\ check (run cfg_class (targs_of Y6)) (fun t => match nth_error (t_nodes t) 0 with Some nd => match nd_left nd with Some _ => true | None => false end | None => false end) = true.
Proof. split; [exact Logic.I|vm_compute; reflexivity]. Qed.

Theorem C75_exact_search_is_exhausted : forall P M c a e t W, trainable c a W -> built P M c a e t ->
  forall id nd, tc_solver c = EXACT -> bins_ok c -> ta_budget a = None -> tc_max_leaves c <> Some (length (t_leaves t)) ->
  In id (t_leaves t) -> node_at t id nd ->
  below_depth c (nd_depth nd) -> tc_min_split c < length (node_rows t id) -> varied (labels_at (ta_labels a) (node_rows t id)) ->
  exists E, (forall f' s', nth_error (nd_feats nd) f' = Some s' -> thresholds c a (node_rows t id) s' (E f')) /\
    (forall f' s' v', nth_error (nd_feats nd) f' = Some s' -> In v' (E f') ->
       let gain := split_change M c a (node_rows t id) s' v' in
       (0 <= gain)%Qc \/ (tc_min_imp c <= nd_prop nd * gain)%Qc \/
       (tc_min_imp c <= nd_prop nd * gain * (Nq (length (node_rows t id)) / Nq (length (ta_labels a))))%Qc).
Proof. exact fitted_exhausted. Qed.
Print Assumptions C75_exact_search_is_exhausted.
(** On the exclusive-or table the root is eligible and stays a leaf. *)
Definition xor_args : targs := {| ta_data := [[z 0; z 0]; [z 0; z 1]; [z 1; z 0]; [z 1; z 1]]; ta_labels := [z 0; z 1; z 1; z 0]; ta_budget := None; ta_dd := None; ta_seed := 7; ta_idcs := None; ta_feats := None |}.
Example C75_ex : varied (labels_at (ta_labels xor_args) (train_rows xor_args)) /\
  check (run cfg_class xor_args) (fun t => (length (t_leaves t) =? 1) && (t_splits t =? 0) && (tc_min_split cfg_class <? length (node_rows t 0))) = true.
Proof. split; [exists (z 0), (z 1); cbn; repeat split; auto; discriminate|vm_compute; reflexivity]. Qed.

Theorem C76_bandit_classification_fits : forall P M c a W e, trainable c a W -> tc_solver c = MAB -> tc_class c = true -> 1 <= tc_batch c ->
  tc_bin c <> IDENTITY -> enough_bins c a 6 -> exists t, built P M c a e t.
Proof. exact mab_fits. Qed.
Print Assumptions C76_bandit_classification_fits.

Theorem C77_missing_depth_raises : forall P M c a W e t0 e0, trainable (with_max_depth c DInf) a W ->
  tc_max_depth c = DNone -> tc_max_leaves c <> Some 1 -> tree_new P c a e = Ok (t0, e0) -> tree_fit M c t0 (None, None) e0 = Err TypeError.
Proof. exact no_depth_raises. Qed.
Print Assumptions C77_missing_depth_raises.
Example C77_ex : trainable (with_max_depth (with_max_depth cfg_class DNone) DInf) (targs_of Y6) 2 /\ exists r, tree_new P0 (with_max_depth cfg_class DNone) (targs_of Y6) env0 = Ok r.
Proof.
  exact no_depth_ready.
Qed.

(** ** Order of the splits *)
(** The left child of a split gets the first unused number, so [l < k] and [k < k'] say that node
    [l] existed, and was still a leaf, when node [s] was split. *)
Theorem C110_best_leaf_is_split_first : forall P M c a e t, built P M c a e t -> train_rows a <> [] ->
  forall s ns k x l nl y,
  node_at t s ns -> nd_left ns = Some k -> nd_red ns = Some x ->
  node_at t l nl -> l <> s -> l < k -> (forall k', nd_left nl = Some k' -> k < k') -> nd_red nl = Some y ->
  xlt (xdiv (xmul y (Fin (Nq (length (node_rows t l))))) (Fin (Nq (length (ta_labels a))))) (Fin (tc_min_imp c)) = true ->
  xlt y x = false.
Proof. exact fitted_best_first'. Qed.
Print Assumptions C110_best_leaf_is_split_first.
(** Node 2 (children from number 3) is split while node 1, with a smaller decrease, waits. *)
Example C110_ex : check (run cfg_reg8 args8) (fun t =>
  match nth_error (t_nodes t) 2, nth_error (t_nodes t) 1 with
  | Some ns, Some nl => match nd_left ns, nd_left nl, nd_red ns, nd_red nl with
      | Some 3, Some 5, Some x, Some y => xlt x y && (tc_min_split cfg_reg8 <? length (node_rows t 1)) && (nd_depth nl =? 1) &&
          xlt (xdiv (xmul y (Fin (Nq (length (node_rows t 1))))) (Fin (Nq 8))) (Fin (tc_min_imp cfg_reg8))
      | _, _, _, _ => false end
  | _, _ => false end) = true /\ train_rows args8 <> [].
Proof. split; [vm_compute; reflexivity|discriminate]. Qed.

(** ** What the nodes record *)
Theorem C118_node_features : forall P M c a e t, built P M c a e t -> train_rows a <> [] -> NoDup (train_feats a) ->
  forall id nd, node_at t id nd -> subsampled c a (nd_feats nd).
Proof. exact fitted_features. Qed.
Print Assumptions C118_node_features.
(** One feature out of two per node, and not always the same. *)
Example C118_ex : NoDup (train_feats (targs_of T6)) /\ check (run cfg_reg (targs_of T6)) (fun t =>
  (length (node_feats t 0) =? 1) && existsb (fun nd => negb (hd 9 (nd_feats nd) =? hd 9 (node_feats t 0))) (t_nodes t)) = true.
Proof. split; [repeat constructor; cbn; lia|vm_compute; reflexivity]. Qed.

Theorem C119_recorded_value : forall P M c a e t W, trainable c a W -> built P M c a e t ->
  forall id nd, tc_solver c = EXACT -> bins_ok c -> node_at t id nd -> nd_computed nd = true ->
  below_depth c (nd_depth nd) /\ tc_min_split c < length (node_rows t id) /\ varied (labels_at (ta_labels a) (node_rows t id)) /\
  exists E, (forall f' s', nth_error (nd_feats nd) f' = Some s' -> thresholds c a (node_rows t id) s' (E f')) /\
  ((exists s v f, nd_sf nd = Some s /\ nd_sv nd = Some v /\ nth_error (nd_feats nd) f = Some s /\ In v (E f) /\
     nd_red nd = Some (Fin (split_change M c a (node_rows t id) s v * (rat (length (node_rows t id)) / rat (length (train_rows a))))%Qc) /\
     (split_change M c a (node_rows t id) s v < 0)%Qc /\
     (forall f' s' v', nth_error (nd_feats nd) f' = Some s' -> In v' (E f') ->
       (split_change M c a (node_rows t id) s v <= split_change M c a (node_rows t id) s' v')%Qc)) \/
   (nd_sf nd = None /\ nd_red nd = None /\
     forall f' s' v', nth_error (nd_feats nd) f' = Some s' -> In v' (E f') -> (0 <= split_change M c a (node_rows t id) s' v')%Qc)).
Proof. exact fitted_value. Qed.
Print Assumptions C119_recorded_value.
(** A leaf that was evaluated when the leaf limit stopped the growth; on the exclusive-or table
    the root was evaluated in vain. *)
Example C119_ex : bins_ok cfg_reg8_three /\ tc_solver cfg_reg8_three = EXACT /\
  check (run cfg_reg8_three args8) (fun t => match nth_error (t_nodes t) 1 with Some nd => nd_computed nd && match nd_left nd, nd_sf nd with None, Some _ => true | _, _ => false end | None => false end) = true /\
  check (run cfg_class xor_args) (fun t => match nth_error (t_nodes t) 0 with Some nd => nd_computed nd && match nd_sf nd with None => true | _ => false end | None => false end) = true.
Proof. split; [exact Logic.I|]. split; [reflexivity|]. split; vm_compute; reflexivity. Qed.

Theorem C120_exact_tree_queries : forall P M c a e t W, trainable c a W -> built P M c a e t -> tc_solver c = EXACT -> bins_ok c ->
  exists ids, NoDup ids /\
    (forall id, In id ids -> exists nd, node_at t id nd /\ below_depth c (nd_depth nd) /\ tc_min_split c < length (node_rows t id) /\ varied (labels_at (ta_labels a) (node_rows t id))) /\
    t_queries t = list_sum (map (fun id => length (node_rows t id) * length (filter (scanned c a (node_rows t id)) (node_feats t id))) ids) /\
    (ta_budget a = None -> tc_max_leaves c <> Some (length (t_leaves t)) ->
     forall id nd, node_at t id nd -> below_depth c (nd_depth nd) -> tc_min_split c < length (node_rows t id) -> varied (labels_at (ta_labels a) (node_rows t id)) -> In id ids).
Proof. exact fitted_exact_queries. Qed.
Print Assumptions C120_exact_tree_queries.
(** Three nodes evaluated: 8, 4 and 4 rows, two features each. *)
Example C120_ex : bins_ok cfg_reg8 /\ tc_solver cfg_reg8 = EXACT /\ ta_budget args8 = None /\ tc_max_leaves cfg_reg8 = None /\
  check (run cfg_reg8 args8) (fun t => (t_queries t =? 8 * 2 + 4 * 2 + 4 * 2) && (length (t_nodes t) =? 7)) = true.
Proof. split; [exact Logic.I|]. split; [reflexivity|]. split; [reflexivity|]. split; [reflexivity|]. vm_compute; reflexivity. Qed.

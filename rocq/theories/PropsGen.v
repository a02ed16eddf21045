(** What a fitted tree guarantees whatever the split search and whatever the arithmetic on
    reductions and proportions (C149).  [ops] is in TreeGen.v, the vocabulary in TreeGenSpec.v. *)
From Coq Require Import List Arith Bool ZArith QArith Qcanon Lia Permutation.
From Verif Require Import Base Num Rng Histogram Utils Criteria Solvers Tree TreeGen Samples Spec SolverSpec TreeSpec TreeGenSpec NumFacts TreeWitness GenWitness TreeGenFacts TreeGenThms TreeGenTotal GenMore.
Import ListNotations.
Local Open Scope nat_scope.

(** The trees of Tree.v are the trees of the exact search and arithmetic. *)
Theorem C149_model_is_an_instance : forall P M c a e t, built P M c a e t <-> gen_built P (exact_ops M c) c a e t.
Proof. exact exact_built. Qed.
Print Assumptions C149_model_is_an_instance.

Theorem C149_rows : forall P O c a e t, gen_built P O c a e t -> train_rows a <> [] ->
  Permutation (flat_map (node_rows t) (t_leaves t)) (train_rows a) /\ NoDup (t_leaves t) /\
  (forall id, In id (t_leaves t) -> node_rows t id <> []) /\
  (forall leaf i, In leaf (t_leaves t) -> In i (node_rows t leaf) -> lands t (nth i (ta_data a) []) 0 leaf).
Proof. exact gen_rows. Qed.
Print Assumptions C149_rows.

Theorem C149_routing : forall P O c a e t, gen_built P O c a e t -> train_rows a <> [] ->
  forall x, (forall f, In f (train_feats a) -> f < length x) ->
  exists leaf, lands t x 0 leaf /\ In leaf (t_leaves t) /\ (forall other, lands t x 0 other -> other = leaf) /\
    walk (t_nodes t) (length (t_nodes t)) 0 x = Ok leaf.
Proof. exact fitted_routes. Qed.
Print Assumptions C149_routing.

Theorem C149_splits : forall P O c a e t, gen_built P O c a e t -> train_rows a <> [] ->
  forall id nd, node_at t id nd -> nd_left nd <> None ->
  (tc_min_split c < length (node_rows t id) /\ varied (labels_at (ta_labels a) (node_rows t id)) /\ below_depth c (nd_depth nd)) /\
  exists l r s v x, nd_left nd = Some l /\ nd_right nd = Some r /\ l <> r /\ In s (train_feats a) /\
    nd_sf nd = Some s /\ nd_sv nd = Some v /\ nd_red nd = Some x /\ o_lt O x (Fin 0) = true /\ o_lt O x (Fin (tc_min_imp c)) = true /\
    node_rows t l = filter (fun i => qle (cell (ta_data a) i s) v) (node_rows t id) /\
    node_rows t r = filter (fun i => qlt v (cell (ta_data a) i s)) (node_rows t id).
Proof. exact gen_splits. Qed.
Print Assumptions C149_splits.

Theorem C149_size : forall P O c a e t, gen_built P O c a e t -> train_rows a <> [] ->
  length (t_leaves t) = S (t_splits t) /\ length (t_nodes t) = S (2 * t_splits t) /\ t_splits t < length (train_rows a) /\
  (forall m, tc_max_leaves c = Some m -> length (t_leaves t) <= m) /\
  (forall id nd, node_at t id nd -> at_level t id (nd_depth nd) /\ within_depth c (nd_depth nd)).
Proof. exact gen_size. Qed.
Print Assumptions C149_size.

Theorem C149_cost : forall P O c a e t, gen_built P O c a e t -> train_rows a <> [] ->
  t_queries t = list_sum (map nd_queries (t_nodes t)) /\
  match ta_budget a with
  | None => t_budget t = None
  | Some b => exists r, t_budget t = Some r /\ (Z.of_nat (t_queries t) + r = b)%Z
  end /\
  (forall b, ta_budget a = Some b -> t_queries t = 0 \/
     exists id nd, node_at t id nd /\ (Z.of_nat (t_queries t) - Z.of_nat (nd_queries nd) < b)%Z).
Proof. exact gen_cost. Qed.
Print Assumptions C149_cost.

Theorem C149_terminates : forall O c, search_ends O -> forall P a e t0 e0,
  tree_new P c a e = Ok (t0, e0) -> gen_tree_fit O c t0 (None, None) e0 <> Err OutOfFuel.
Proof. exact built_terminates. Qed.
Print Assumptions C149_terminates.

Theorem C149_fit_succeeds : forall O P c a W e, trainable c a W -> search_ends O -> search_answers O a -> search_separates O a -> decrease_negative O c ->
  exists t, gen_built P O c a e t.
Proof. exact fit_total. Qed.
Print Assumptions C149_fit_succeeds.

(** The hypotheses are met by rounded arithmetic and by a search that ignores the labels; the
    latter does not build the exact tree, and with the former a proportion is not a share. *)
Example C149_hypotheses :
  trainable cfg_class (targs_of Y6) 2 /\ search_ends blind_ops /\ search_answers blind_ops (targs_of Y6) /\ search_separates blind_ops (targs_of Y6) /\ decrease_negative blind_ops cfg_class /\
  decrease_negative (coarse_ops cfg_class) cfg_class /\
  check (gen_run blind_ops cfg_class (targs_of Y6)) (fun t => t_splits t =? 3) = true /\ check (run cfg_class (targs_of Y6)) (fun t => t_splits t =? 1) = true /\
  (exists t nd, gen_built P0 (coarse_ops cfg_class) cfg_class (targs_of Y6) env0 t /\ train_rows (targs_of Y6) <> [] /\ node_at t 1 nd /\ length (nd_idcs nd) = 3 /\
     nd_prop nd = frac 6 16 /\ nd_prop nd <> (Nq 3 / Nq 7)%Qc).
Proof. exact gen_examples. Qed.

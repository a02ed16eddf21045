(** The statements of PropsGen.v. *)
From Coq Require Import List Arith Bool ZArith QArith Qcanon Lia Permutation.
From Verif Require Import Base Num Rng Histogram Utils Criteria Solvers Tree TreeGen Samples Spec SolverSpec TreeSpec TreeGenSpec NumFacts ListFacts TreeWitness TrustWitness GenWitness TreeGenFacts TreeGenThms TreeGenTotal.
Import ListNotations.
Local Open Scope nat_scope.

Lemma exact_built P M c a e t : built P M c a e t <-> gen_built P (exact_ops M c) c a e t.
Proof.
  split; intros (t0 & e0 & e1 & H1 & H2); exists t0, e0, e1; (split; [exact H1|]); [rewrite gen_fit_exact|rewrite <- gen_fit_exact]; exact H2.
Qed.
Lemma gen_rows P O c a e t : gen_built P O c a e t -> train_rows a <> [] ->
  Permutation (flat_map (node_rows t) (t_leaves t)) (train_rows a) /\ NoDup (t_leaves t) /\
  (forall id, In id (t_leaves t) -> node_rows t id <> []) /\
  (forall leaf i, In leaf (t_leaves t) -> In i (node_rows t leaf) -> lands t (nth i (ta_data a) []) 0 leaf).
Proof.
  intros HB NE. destruct (fitted_partition _ _ _ _ _ _ HB NE) as (A & B & C & _). split; [exact A|]. split; [exact B|]. split; [exact C|].
  exact (fitted_rows_routed _ _ _ _ _ _ HB NE).
Qed.
Lemma gen_splits P O c a e t : gen_built P O c a e t -> train_rows a <> [] ->
  forall id nd, node_at t id nd -> nd_left nd <> None ->
  (tc_min_split c < length (node_rows t id) /\ varied (labels_at (ta_labels a) (node_rows t id)) /\ below_depth c (nd_depth nd)) /\
  exists l r s v x, nd_left nd = Some l /\ nd_right nd = Some r /\ l <> r /\ In s (train_feats a) /\
    nd_sf nd = Some s /\ nd_sv nd = Some v /\ nd_red nd = Some x /\ o_lt O x (Fin 0) = true /\ o_lt O x (Fin (tc_min_imp c)) = true /\
    node_rows t l = filter (fun i => qle (cell (ta_data a) i s) v) (node_rows t id) /\
    node_rows t r = filter (fun i => qlt v (cell (ta_data a) i s)) (node_rows t id).
Proof.
  intros HB NE id nd A H. destruct (fitted_inner _ _ _ _ _ _ HB NE id nd A H) as (E1 & E2 & E3 & (x & X1 & X2 & X3) & (s & S1 & S2)).
  destruct (split_node _ _ _ _ _ _ HB NE id nd A H) as (l & r & s' & v & L1 & L2 & _ & _ & L3 & L4 & L5 & _ & _ & L6 & L7).
  assert (s' = s) by congruence. subst s'. rewrite (rows_of t id nd A) in *. split; [auto|]. exists l, r, s, v, x. repeat (split; [assumption|]). assumption.
Qed.
Lemma gen_size P O c a e t : gen_built P O c a e t -> train_rows a <> [] ->
  length (t_leaves t) = S (t_splits t) /\ length (t_nodes t) = S (2 * t_splits t) /\ t_splits t < length (train_rows a) /\
  (forall m, tc_max_leaves c = Some m -> length (t_leaves t) <= m) /\
  (forall id nd, node_at t id nd -> at_level t id (nd_depth nd) /\ within_depth c (nd_depth nd)).
Proof.
  intros HB NE. destruct (fitted_shape _ _ _ _ _ _ HB NE) as (_ & A & B). split; [exact A|]. split; [exact B|]. split; [exact (fitted_splits _ _ _ _ _ _ HB NE)|].
  split; [exact (fitted_leaf_limit _ _ _ _ _ _ HB NE)|]. apply (fitted_depth _ _ _ _ _ _ HB NE).
Qed.
Lemma gen_cost P O c a e t : gen_built P O c a e t -> train_rows a <> [] ->
  t_queries t = list_sum (map nd_queries (t_nodes t)) /\
  match ta_budget a with
  | None => t_budget t = None
  | Some b => exists r, t_budget t = Some r /\ (Z.of_nat (t_queries t) + r = b)%Z
  end /\
  (forall b, ta_budget a = Some b -> t_queries t = 0 \/
     exists id nd, node_at t id nd /\ (Z.of_nat (t_queries t) - Z.of_nat (nd_queries nd) < b)%Z).
Proof.
  intros HB NE. destruct (fitted_queries _ _ _ _ _ _ HB NE) as [A B]. split; [exact A|]. split; [exact B|]. exact (fitted_budget _ _ _ _ _ _ HB NE).
Qed.

Lemma coarse_run : exists t nd, gen_run (coarse_ops cfg_class) cfg_class (targs_of Y6) = Ok t /\ node_at t 1 nd /\ length (nd_idcs nd) = 3 /\ nd_prop nd = frac 6 16.
Proof.
  assert (K : check (gen_run (coarse_ops cfg_class) cfg_class (targs_of Y6))
    (fun t => match nth_error (t_nodes t) 1 with Some nd => (length (nd_idcs nd) =? 3) && qeq (nd_prop nd) (frac 6 16) | None => false end) = true) by (vm_compute; reflexivity).
  destruct (gen_run _ _ _) as [t|]; [|discriminate]. cbn [check] in K. destruct (nth_error (t_nodes t) 1) as [nd|] eqn:N; [|discriminate].
  apply andb_true_iff in K. destruct K as [K1 K2]. exists t, nd. split; [reflexivity|]. split; [exact N|]. split; [now apply Nat.eqb_eq|now apply qeq_spec].
Qed.
Lemma gen_examples :
  trainable cfg_class (targs_of Y6) 2 /\ search_ends blind_ops /\ search_answers blind_ops (targs_of Y6) /\ search_separates blind_ops (targs_of Y6) /\ decrease_negative blind_ops cfg_class /\
  decrease_negative (coarse_ops cfg_class) cfg_class /\
  check (gen_run blind_ops cfg_class (targs_of Y6)) (fun t => t_splits t =? 3) = true /\ check (run cfg_class (targs_of Y6)) (fun t => t_splits t =? 1) = true /\
  (exists t nd, gen_built P0 (coarse_ops cfg_class) cfg_class (targs_of Y6) env0 t /\ train_rows (targs_of Y6) <> [] /\ node_at t 1 nd /\ length (nd_idcs nd) = 3 /\
     nd_prop nd = frac 6 16 /\ nd_prop nd <> (Nq 3 / Nq 7)%Qc).
Proof.
  split; [apply targs_trainable|]. split; [exact blind_ends|]. split; [apply blind_answers|]. split; [apply blind_separates|].
  assert (NG : (tc_min_imp cfg_class <= 0)%Qc) by (vm_compute; discriminate).
  split; [now apply lt_negative|]. split; [now apply lt_negative|]. split; [vm_compute; reflexivity|]. split; [vm_compute; reflexivity|].
  destruct coarse_run as (t & nd & A & B & C & D). exists t, nd. split; [now apply gen_run_built|]. split; [discriminate|]. split; [exact B|]. split; [exact C|]. split; [exact D|].
  rewrite D. intros Z. apply (f_equal this) in Z. vm_compute in Z. discriminate.
Qed.

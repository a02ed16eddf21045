(** The stability experiments, experiments/feature_stability/feature_importance_tests.py:23-144
    (test_stability_with_budget) and :147-299 (run_stability_stats_test), on given data: loading
    the data, printing and the log files are left out.  [order] is the argsort of
    Permutation.v. *)
From Coq Require Import List Arith Bool ZArith QArith Qcanon.
From Verif Require Import Base Num Rng Histogram Utils Criteria Solvers Tree Forest Permutation Wrappers Compare.
Import ListNotations.
Local Open Scope nat_scope.

(** The settings both objects share (stability_metric keeps its default and is not used when the
    number of best features is given), the number of trials, best_k_feature and
    conf_multiplier.  [pc_solver] of the settings is not read. *)
Record stest := { tt_cfg : pcfg; tt_trials : nat; tt_k : Z; tt_conf : Qc }.
Definition pc_with (c : pcfg) (sv : solver) (leaves : option nat) : pcfg :=
  {| pc_data := pc_data c; pc_labels := pc_labels c; pc_depth := pc_depth c; pc_forests := pc_forests c; pc_trees := pc_trees c; pc_class := pc_class c; pc_solver := sv; pc_metric := JACCARD;
     pc_budget := pc_budget c; pc_fsub := pc_fsub c; pc_leaves := leaves; pc_eps := pc_eps c; pc_score := pc_score c |}.

(** PermutationImportance(...).run_baseline(k): a new object, used once. *)
Definition baseline (order : list Qc -> list nat) (M : math) (P : prng) (c : pcfg) (seed : nat) (k : Z) (h : heap) (e : env) : res (xn * heap * env) :=
  do a <- perm_new P c seed e;
  do r <- run_baseline order M P c (fst a) (Some k) h (snd a);
  let '(v, _, h', e') := r in Ok (v, h', e').

(** One trial, feature_importance_tests.py:204-240: the seeds are drawn first; max_leaf_nodes is
    passed to the exhaustive object only. *)
Definition trial (order : list Qc -> list nat) (M : math) (P : prng) (t : stest) (s : list (xn * xn) * tape * heap * env) (_ : nat) : res (list (xn * xn) * tape * heap * env) :=
  let '(l, g, h, e) := s in
  let (s1, g1) := draw g in
  let (s2, g2) := draw g1 in
  do a <- baseline order M P (pc_with (tt_cfg t) EXACT (pc_leaves (tt_cfg t))) s1 (tt_k t) h e;
  let '(v, h1, e1) := a in
  do b <- baseline order M P (pc_with (tt_cfg t) MAB None) s2 (tt_k t) h1 e1;
  let '(w, h2, e2) := b in
  Ok (l ++ [(v, w)], g2, h2, e2).

(** np.random.seed(seed) and rng = np.random.default_rng(seed), then the loop,
    feature_importance_tests.py:199-240. *)
Definition trials (order : list Qc -> list nat) (M : math) (P : prng) (t : stest) (seed : nat) (h : heap) (e : env) : res (list (xn * xn) * heap * env) :=
  do r <- foldM (trial order M P t) ([], seed_gen P seed, h, set_np e (seed_np P seed)) (seq 0 (tt_trials t));
  let '(l, _, h', e') := r in Ok (l, h', e').

(** avg -/+ np.std(a) / math.sqrt(num_trials) * conf_multiplier,
    feature_importance_tests.py:245-254. *)
Definition interval (M : math) (n : nat) (conf : Qc) (l : list xn) : xn * xn :=
  let st := stat_of M n l in
  (xsub (st_avg st) (xmul (st_std st) (Fin conf)), xadd (st_avg st) (xmul (st_std st) (Fin conf))).

(** The whole test, feature_importance_tests.py:147-299: is_overlap = exact_CI[1] >= mab_CI[0]
    (line 255), assert not is_overlap (line 298), and the four bounds. *)
Definition stability_test (order : list Qc -> list nat) (M : math) (P : prng) (t : stest) (seed : nat) (h : heap) (e : env) : res ((xn * xn) * (xn * xn) * heap * env) :=
  do r <- trials order M P t seed h e;
  let '(l, h', e') := r in
  let ex := interval M (tt_trials t) (tt_conf t) (map fst l) in
  let mab := interval M (tt_trials t) (tt_conf t) (map snd l) in
  do _ <- guard (negb (xle (fst mab) (snd ex))) AssertionError;
  Ok (ex, mab, h', e').

(** test_stability_with_budget, feature_importance_tests.py:23-144: one seed for both objects,
    the same settings but for the solver; it returns None when MAB's stability is greater. *)
Definition budget_test (order : list Qc -> list nat) (M : math) (P : prng) (c : pcfg) (seed : nat) (k : Z) (h : heap) (e : env) : res (heap * env) :=
  do a <- baseline order M P (pc_with c EXACT (pc_leaves c)) seed k h (set_np e (seed_np P seed));
  let '(v, h1, e1) := a in
  do b <- baseline order M P (pc_with c MAB (pc_leaves c)) seed k h1 e1;
  let '(w, h2, e2) := b in
  do _ <- guard (xlt v w) AssertionError;
  Ok (h2, e2).

(** The scaling experiment, experiments/scaling_exps/investigate_scaling.py:13-83: how the number
    of histogram insertions of the bandit search grows with the number of training rows.  Not
    modelled: loading MNIST and make_regression (the table and the labels are arguments), the
    measured times and the files written. *)
From Coq Require Import List Arith Bool ZArith QArith Qcanon.
From Verif Require Import Base Num Rng Histogram Utils Criteria Solvers Tree Forest Wrappers Compare.
Import ListNotations.
Local Open Scope nat_scope.

(** The options compare_runtimes gives HRFC and HRFR, compare_runtimes.py:131-146, :308-325, with
    exp_constants.py:14 and utils/constants.py:6,39. *)
Definition sweep_opts (cl : bool) : kwargs :=
  [(Kn_estimators, VInt 5); (Kmax_depth, VInt 5); (Kmin_samples_split, VInt 2); (Kmin_impurity_decrease, VNum (Q2Qc (5 # 1000))); (Kmax_leaf_nodes, VNone);
   (Kbudget, VNone); (Kcriterion, VMeasure (if cl then GINI else MSE)); (Ksplitter, VSplitter BEST); (Kverbose, VBool false)] ++
  (if cl then [] else [(Knum_bins, VInt 11); (Kwith_replacement, VBool false)]).

(** models, :25 and :46; predict=False, run_theirs=False, :62-74. *)
Definition sweep_task (cl : bool) (X : list (list Qc)) (y : nat) : task :=
  {| tk_w := if cl then HistogramRandomForestClassifier else HistogramRandomForestRegressor; tk_opts := sweep_opts cl; tk_X := X; tk_y := y;
     tk_testX := []; tk_testy := y; tk_predict := false; tk_theirs := false |}.

(** One fitting_seed, :56-77: the rows are drawn with replacement by a generator with that seed;
    the rows and labels drawn are new arrays; compare_runtimes runs with its default of one seed.
    The mean of the list our_num_queries is returned. *)
Definition sweep_once (M : math) (P : prng) (cl : bool) (X : list (list Qc)) (Y : list Qc) (size fitting_seed : nat) (e : env) : res (xn * env) :=
  let e := set_np e (seed_np P fitting_seed) in
  do d <- choice_repl (arange (length X)) size (seed_gen P fitting_seed);
  do X' <- take_idx X (fst d);
  do Y' <- take_idx Y (fst d);
  do r <- compare M P (sweep_task cl X' 0) 1 [{| la_int := cl; la_vals := Y' |}] e;
  let '(rp, _, e') := r in Ok (st_avg (sd_queries (rp_ours rp)), e').

(** One size, :50-80, with n = SCALING_NUM_SEEDS: num_queries += ..., then /= num_trials. *)
Definition sweep_size (M : math) (P : prng) (cl : bool) (X : list (list Qc)) (Y : list Qc) (n size : nat) (e : env) : res (xn * env) :=
  do r <- foldM (fun s fitting_seed => let '(acc, e) := s in do q <- sweep_once M P cl X Y size fitting_seed e; Ok (xadd acc (fst q), snd q)) (Fin 0%Qc, e) (seq 0 n);
  Ok (xdiv (fst r) (Fin (Nq n)), snd r).

(** The dictionary size_to_insertions_dict, :49-82, in the order of the list of sizes. *)
Definition investigate (M : math) (P : prng) (cl : bool) (X : list (list Qc)) (Y : list Qc) (n : nat) (sizes : list nat) (e : env) : res (list (nat * xn) * env) :=
  foldM (fun s size => let '(l, e) := s in do q <- sweep_size M P cl X Y n size e; Ok (l ++ [(size, fst q)], snd q)) ([], e) sizes.

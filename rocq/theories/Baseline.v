(** The comparison with scikit-learn's forests,
    experiments/sklearn_exps/compare_baseline_implementations.py:33-322 (compare_accuracies).
    Not modelled: the printed lines, and the file that holds the results of an earlier run
    (:301-311), which decides only whether the results are returned as a dictionary or as a
    tuple. *)
From Coq Require Import List Arith Bool ZArith QArith Qcanon.
From Verif Require Import Base Num Rng Histogram Utils Criteria Solvers Tree Forest Wrappers Compare.
Import ListNotations.
Local Open Scope nat_scope.

(** The argument [compare], any other string being [CtOther]. *)
Inductive contest := CtRFC | CtERFC | CtRFR | CtERFR | CtGBRFR | CtGBHRFR | CtOther.

(** :229-245. *)
Definition ct_class (ct : contest) : bool := match ct with CtRFC | CtERFC => true | _ => false end.

(** Which of this library's classes is built, :48, :75, :105, :133, :162, :195. *)
Definition ct_wrapper (ct : contest) : res wrapper :=
  match ct with
  | CtRFC => Ok RandomForestClassifier
  | CtERFC => Ok ExtremelyRandomForestClassifier
  | CtRFR => Ok RandomForestRegressor
  | CtERFR | CtGBHRFR => Ok ExtremelyRandomForestRegressor
  | CtGBRFR => Ok GBRandomForestRegressor
  | CtOther => Err NotImplementedError
  end.

(** The options of that call, :48-62, :75-90, :105-119, :133-148, :162-179, :195-210. *)
Definition ct_opts (ct : contest) : kwargs :=
  [(Kn_estimators, VInt 5); (Kmax_depth, VInt 5); (Kmin_samples_split, VInt 2); (Kmin_impurity_decrease, VInt 0); (Kmax_leaf_nodes, VNone);
   (Kbudget, VNone); (Kcriterion, VMeasure (if ct_class ct then GINI else MSE)); (Ksplitter, VSplitter BEST); (Kverbose, VBool false)] ++
  match ct with
  | CtERFC | CtERFR => [(Knum_bins, VInt 1)]
  | CtGBHRFR => [(Knum_bins, VNone)]
  | CtGBRFR => [(Kbootstrap, VBool false); (Kwith_replacement, VBool false); (Kboosting_lr, VNum (Q2Qc (1 # 10)))]
  | _ => []
  end.

(** The data of a comparison: the training table, the reference of the training labels, the
    test table, the reference of the test labels. *)
Record sets := { se_X : list (list Qc); se_y : nat; se_testX : list (list Qc); se_testy : nat }.
Definition ct_task (ct : contest) (w : wrapper) (d : sets) : task :=
  {| tk_w := w; tk_opts := ct_opts ct; tk_X := se_X d; tk_y := se_y d; tk_testX := se_testX d; tk_testy := se_testy d; tk_predict := true; tk_theirs := true |}.

(** scikit-learn's model: any function from the seed, the training table, the training labels
    and a table of points to predictions.  It does not write to the arrays it is given. *)
Definition sklearn := contest -> nat -> list (list Qc) -> list Qc -> list (list Qc) -> list Qc.
Definition guess (cl : bool) (v : Qc) : fpred := if cl then FClass v [] else FReg v.

(** What is recorded of a seed: our model, the labels scikit-learn's model was fitted to, and
    its two scores. *)
Record bout := { bo_ours : entry; bo_targets : list Qc; bo_train : xn; bo_test : xn }.

(** One pass of the loop, :45-270. *)
Definition fight (sk : sklearn) (M : math) (P : prng) (ct : contest) (d : sets) (seed : nat) (h : heap) (e : env) : res (bout * heap * env) :=
  do w <- ct_wrapper ct;
  let tk := ct_task ct w d in
  do a <- construct P w (call_args tk EXACT seed) h e;
  let '(o, h1, e1) := a in
  do r <- forest_fit M P (wo_cfg o) (wo_forest o) (None, None) h1 e1;
  let '(f, h2, e2) := r in
  do y <- nth_res h2 (se_y d);
  let model := sk ct seed (se_X d) (la_vals y) in
  do ours <- judge tk (wo_cfg o) f h2;
  do yt <- nth_res h2 (se_testy d);
  do s <- score (ct_class ct) (map (guess (ct_class ct)) (model (se_X d))) (la_vals y);
  do st <- score (ct_class ct) (map (guess (ct_class ct)) (model (se_testX d))) (la_vals yt);
  Ok ({| bo_ours := ours; bo_targets := la_vals y; bo_train := s; bo_test := st |}, h2, e2).

(** for seed in range(num_seeds). *)
Definition one_fight (sk : sklearn) (M : math) (P : prng) (ct : contest) (d : sets) (s : list bout * heap * env) (seed : nat) : res (list bout * heap * env) :=
  let '(l, h, e) := s in
  do r <- fight sk M P ct d seed h e;
  let '(b, h', e') := r in Ok (l ++ [b], h', e').
Definition fights (sk : sklearn) (M : math) (P : prng) (ct : contest) (d : sets) (n : nat) (h : heap) (e : env) : res (list bout * heap * env) :=
  foldM (one_fight sk M P ct d) ([], h, e) (seq 0 n).

(** np.mean and np.std over the seeds, :272-282 (the deviation is not divided by the root of
    the number of seeds here). *)
Definition spread (M : math) (l : list xn) : stat := {| st_avg := xmean l; st_std := xstd M l |}.

(** What is returned, :285-322, with the seeds' records in place of the lists of scores. *)
Record outcome := { oc_overlap : bool; oc_train : stat; oc_test : stat; oc_their_train : stat; oc_their_test : stat; oc_bouts : list bout }.
Definition compare_accuracies (sk : sklearn) (M : math) (P : prng) (ct : contest) (d : sets) (n : nat) (h : heap) (e : env) : res (outcome * heap * env) :=
  do r <- fights sk M P ct d n h e;
  let '(l, h', e') := r in
  let ours := spread M (somes (map (fun b => en_test (bo_ours b)) l)) in
  let theirs := spread M (map bo_test l) in
  Ok ({| oc_overlap := overlap_of ours theirs; oc_train := spread M (map (fun b => en_train (bo_ours b)) l); oc_test := ours;
         oc_their_train := spread M (map bo_train l); oc_their_test := theirs; oc_bouts := l |}, h', e').

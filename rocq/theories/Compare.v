(** The comparisons of the experiments, experiments/budget_exps/compare_budgets.py:71-604 and
    experiments/runtime_exps/compare_runtimes.py:95-622 (the same loop; the measured times are
    left out).  Two models of one class are built on the same data and the same label array,
    one with the bandit search and one with the exhaustive search, fitted one after the other,
    and judged. *)
From Coq Require Import List Arith Bool ZArith QArith Qcanon.
From Verif Require Import Base Num Rng Histogram Utils Criteria Solvers Tree Forest Wrappers.
Import ListNotations.
Local Open Scope nat_scope.

(** np.mean and np.std (division by n, numpy's default) of numbers that may be nan. *)
Definition xmean (l : list xn) : xn := xdiv (xsum l) (Fin (Nq (length l))).
Definition xstd (M : math) (l : list xn) : xn :=
  let m := xmean l in xsqrt M (xmean (map (fun x => let d := xsub x m in xmul d d) l)).

(** What is compared: the class, the options both models get (everything but data, labels,
    solver and random_state, compare_budgets.py:118-447), the training table, the reference of
    the training labels, the test table, the reference of the test labels, and the two switches
    [predict] and [run_theirs]. *)
Record task := { tk_w : wrapper; tk_opts : kwargs; tk_X : list (list Qc); tk_y : nat; tk_testX : list (list Qc); tk_testy : nat;
                 tk_predict : bool; tk_theirs : bool }.

(** The arguments of one of the two constructor calls. *)
Definition call_args (tk : task) (sv : solver) (seed : nat) : kwargs :=
  [(Kdata, VTable (tk_X tk)); (Klabels, VArr (tk_y tk)); (Ksolver, VSolver sv); (Krandom_state, VInt (Z.of_nat seed))] ++ tk_opts tk.

(** compare_budgets.py:473-513: np.mean(predict_batch(X)[0] == y) for classes,
    np.mean((predict_batch(X) - y) ** 2) for numbers.  Unequal lengths: an error, where numpy's
    == would give a single False. *)
Definition hit (p : fpred) (y : Qc) : res xn :=
  match p with FClass l _ | FNanClass l => Ok (if qeq l y then Fin 1 else Fin 0) | _ => Err TypeError end.
Definition sq_err (p : fpred) (y : Qc) : res xn :=
  match p with FReg v => Ok (Fin ((v - y) * (v - y)))%Qc | FNanReg => Ok NaN | _ => Err TypeError end.
Definition score (cl : bool) (ps : list fpred) (ys : list Qc) : res xn :=
  do _ <- guard (length ps =? length ys) ValueError;
  do l <- mapM (fun py => (if cl then hit else sq_err) (fst py) (snd py)) (combine ps ys);
  Ok (xmean l).

(** What is recorded of a fitted model: the settings, the forest after fit (f_trees and
    f_queries give num_trees and num_queries) and the two scores. *)
Record entry := { en_cfg : fcfg; en_forest : forest; en_train : xn; en_test : option xn }.

(** Judging a fitted model: the training labels are read from the array now. *)
Definition judge (tk : task) (c : fcfg) (f : forest) (h : heap) : res entry :=
  do p <- forest_predict_batch c f (tk_X tk);
  do y <- nth_res h (tk_y tk);
  do s <- score (w_class (tk_w tk)) (fst p) (la_vals y);
  if tk_predict tk then
    do q <- forest_predict_batch c (snd p) (tk_testX tk);
    do yt <- nth_res h (tk_testy tk);
    do st <- score (w_class (tk_w tk)) (fst q) (la_vals yt);
    Ok {| en_cfg := c; en_forest := f; en_train := s; en_test := Some st |}
  else Ok {| en_cfg := c; en_forest := f; en_train := s; en_test := None |}.

(** One pass of the loop over the seeds, compare_budgets.py:117-539.  Both models are built
    before the first is fitted; the second is built even if it is not run. *)
Definition round (M : math) (P : prng) (tk : task) (seed : nat) (h : heap) (e : env) : res (entry * option entry * heap * env) :=
  do a <- construct P (tk_w tk) (call_args tk MAB seed) h e;
  let '(o1, h1, e1) := a in
  do b <- construct P (tk_w tk) (call_args tk EXACT seed) h1 e1;
  let '(o2, h2, e2) := b in
  do r <- forest_fit M P (wo_cfg o1) (wo_forest o1) (None, None) h2 e2;
  let '(f1, h3, e3) := r in
  if tk_theirs tk then
    do q <- forest_fit M P (wo_cfg o2) (wo_forest o2) (None, None) h3 e3;
    let '(f2, h4, e4) := q in
    do j1 <- judge tk (wo_cfg o1) f1 h4;
    do j2 <- judge tk (wo_cfg o2) f2 h4;
    Ok (j1, Some j2, h4, e4)
  else
    do j1 <- judge tk (wo_cfg o1) f1 h3;
    Ok (j1, None, h3, e3).

(** for seed in range(num_seeds). *)
Definition one_more (M : math) (P : prng) (tk : task) (s : list (entry * option entry) * heap * env) (seed : nat) : res (list (entry * option entry) * heap * env) :=
  let '(l, h, e) := s in
  do r <- round M P tk seed h e;
  let '(a, b, h', e') := r in Ok (l ++ [(a, b)], h', e').
Definition rounds (M : math) (P : prng) (tk : task) (n : nat) (h : heap) (e : env) : res (list (entry * option entry) * heap * env) :=
  foldM (one_more M P tk) ([], h, e) (seq 0 n).

(** A mean and np.std(...) / np.sqrt(num_seeds), compare_budgets.py:541-568. *)
Record stat := { st_avg : xn; st_std : xn }.
Definition stat_of (M : math) (n : nat) (l : list xn) : stat := {| st_avg := xmean l; st_std := xdiv (xstd M l) (xsqrt M (Fin (Nq n))) |}.
Fixpoint somes {A} (l : list (option A)) : list A := match l with [] => [] | Some a :: r => a :: somes r | None :: r => somes r end.
Record side := { sd_train : stat; sd_test : option stat; sd_queries : stat; sd_trees : stat }.
Definition side_of (M : math) (predict : bool) (n : nat) (l : list entry) : side :=
  {| sd_train := stat_of M n (map en_train l); sd_test := if predict then Some (stat_of M n (somes (map en_test l))) else None;
     sd_queries := stat_of M n (map (fun x => Fin (Nq (f_queries (en_forest x)))) l);
     sd_trees := stat_of M n (map (fun x => Fin (Nq (length (f_trees (en_forest x))))) l) |}.
Definition xabs (a : xn) : xn := match a with Fin x => if qlt x 0 then Fin (- x) else Fin x | PInf | NInf => PInf | NaN => NaN end.
(** np.abs(their_avg_test - our_avg_test) < their_std_test + our_std_test, compare_budgets.py:570-571. *)
Definition overlap_of (ours theirs : stat) : bool := xlt (xabs (xsub (st_avg theirs) (st_avg ours))) (xadd (st_std theirs) (st_std ours)).

(** The dictionary that is returned, compare_budgets.py:573-604. *)
Record report := { rp_overlap : option bool; rp_ours : side; rp_theirs : option side; rp_rounds : list (entry * option entry) }.
Definition compare (M : math) (P : prng) (tk : task) (n : nat) (h : heap) (e : env) : res (report * heap * env) :=
  do r <- rounds M P tk n h e;
  let '(l, h', e') := r in
  let ours := side_of M (tk_predict tk) n (map fst l) in
  if tk_theirs tk then
    let theirs := side_of M (tk_predict tk) n (somes (map snd l)) in
    match sd_test ours, sd_test theirs with
    | Some a, Some b => Ok ({| rp_overlap := Some (overlap_of a b); rp_ours := ours; rp_theirs := Some theirs; rp_rounds := l |}, h', e')
    | _, _ => Err UnboundLocalError
    end
  else Ok ({| rp_overlap := None; rp_ours := ours; rp_theirs := None; rp_rounds := l |}, h', e').

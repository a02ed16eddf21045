(** Model of data_structures/permutation.py. *)
From Coq Require Import List Arith Bool ZArith QArith Qcanon Lia.
From Verif Require Import Base Num Rng Histogram Utils Criteria Solvers Tree Forest.
Import ListNotations.
Local Open Scope nat_scope.

(** Stability metrics (utils/constants.py:60-62). *)
Inductive metric := JACCARD | SPEARMAN | KUNCHEVA | MetricOther.

(** len(np.intersect1d(a, b)) and len(np.union1d(a, b)). *)
Definition inter_size (a b : list nat) : nat :=
  length (filter (fun x => existsb (Nat.eqb x) b) (nunique a)).
Definition union_size (a b : list nat) : nat := length (nunique (a ++ b)).

(** get_pairwise_stability, permutation.py:162-208.  Ranks are natural numbers (what rankdata
    returns).  Dividing by zero raises: all operands are Python numbers.  A second argument
    that is too short raises only where it is indexed (SPEARMAN). *)
Definition pairwise_stability (m : metric) (v1 v2 : list nat) : res Qc :=
  let L := length v1 in
  let idx := seq 1 (L - 1) in
  match m with
  | JACCARD =>
      let s := qsum (map (fun i => (Nq (inter_size (firstn (i + 1) v1) (firstn (i + 1) v2)) /
                                    Nq (union_size (firstn (i + 1) v1) (firstn (i + 1) v2)))%Qc) idx) in
      do _ <- guard (negb (L =? 0)) ZeroDivisionError;
      Ok (s / Nq L)%Qc
  | SPEARMAN =>
      do ds <- mapM (fun i => do a <- nth_res v1 i; do b <- nth_res v2 i;
                              let d := (Nq a - Nq b)%Qc in Ok (d * d)%Qc) idx;
      do _ <- guard (1 <? L) ZeroDivisionError;
      let six := Nq 6 in
      Ok (1 - six * qsum ds / (Nq L * (Nq L * Nq L - 1)))%Qc
  | KUNCHEVA =>
      let s := qsum (map (fun i =>
          let i2 := (Nq i * Nq i)%Qc in
          ((Nq (inter_size (firstn (i + 1) v1) (firstn (i + 1) v2)) - i2 / Nq L) /
           (Nq i - i2 * Nq L))%Qc) idx) in
      do _ <- guard (negb (L =? 0)) ZeroDivisionError;
      Ok (s / Nq L)%Qc
  | MetricOther => Err NotImplementedError
  end.

(** scipy's rankdata(row, method="dense"): one plus the number of smaller distinct values. *)
Definition dense_ranks (row : list Qc) : list nat :=
  map (fun x => length (filter (fun y => qle y x) (unique row))) row.

(** All pairs i < j, in the order of the two loops. *)
Fixpoint pairs {A} (l : list A) : list (A * A) :=
  match l with [] => [] | a :: t => map (fun b => (a, b)) t ++ pairs t end.

(** get_stability_pairwise, permutation.py:210-227 (imp_data two-dimensional). *)
Definition stability_pairwise (m : metric) (imp : list (list Qc)) : res Qc :=
  let L := length imp in
  do ss <- mapM (fun ab => pairwise_stability m (fst ab) (snd ab)) (pairs (map dense_ranks imp));
  do _ <- guard (1 <? L) ZeroDivisionError;
  Ok (Nq 2 * qsum ss / (Nq L * (Nq L - 1)))%Qc.

(** array[:k] of an axis of length n. *)
Definition slice_len (k : Z) (n : nat) : nat :=
  if (k <? 0)%Z then n - Z.to_nat (- k) else Nat.min (Z.to_nat k) n.

(** The selected features of one forest, permutation.py:240-246: the first k indices of
    np.argsort(-row) with those of negative importance replaced by -1 (MIN_IMPORTANCE = 0.0,
    constants.py:63).  numpy's default sort is not stable, so [argsort] is a parameter. *)
Definition best_features (argsort : list Qc -> list nat) (k : Z) (row : list Qc) : list Z :=
  map (fun j => if qle 0%Qc (nth j row 0%Qc) then Z.of_nat j else (-1)%Z)
      (firstn (slice_len k (length row)) (argsort (map Qcopp row))).

Definition count_where {A} (p : A -> bool) (ls : list (list A)) : nat :=
  list_sum (map (fun l => length (filter p l)) ls).

(** get_stability_freq, permutation.py:229-260.  The quotients of numpy scalars follow IEEE
    rules; c_var / F with F = 0 divides Python numbers. *)
Definition stability_freq (argsort : list Qc -> list nat) (imp : list (list Qc)) (k : Z) : res xn :=
  let N := length imp in
  do r0 <- nth_res imp 0;
  let F := length r0 in
  do _ <- guard (k <? Z.of_nat F)%Z AssertionError;
  do _ <- guard (negb (F =? 0)) ZeroDivisionError;
  let best := map (best_features argsort k) imp in
  let c_var := xsum (map (fun i =>
      let freq := (Nq (count_where (Z.eqb (Z.of_nat i)) best) / Nq N)%Qc in
      xdiv (Fin (Nq N * freq * (1 - freq))%Qc) (Fin (Nq N - 1)%Qc)) (seq 0 F)) in
  let d_bar := (Nq (count_where (Z.leb 0) best) / Nq N)%Qc in
  let numer := xdiv c_var (Fin (Nq F)) in
  let denom := (d_bar * (1 - d_bar / Nq F) / Nq F)%Qc in
  Ok (xsub (Fin 1%Qc) (xdiv numer (Fin denom))).

(** ** The class PermutationImportance *)
Inductive iscore := IImpurity | IPermutation | IOther.

(** Constructor arguments, permutation.py:29-66.  [pc_data]/[pc_labels]: the table and the
    reference to the label array. *)
Record pcfg := {
  pc_data : list (list Qc);
  pc_labels : nat;
  pc_depth : depthlim;
  pc_forests : nat;
  pc_trees : nat;
  pc_class : bool;
  pc_solver : solver;
  pc_metric : metric;
  pc_budget : option Z;
  pc_fsub : fsub;
  pc_leaves : option nat;
  pc_eps : Qc;
  pc_score : iscore
}.

Record pstate := { ps_gen : tape; ps_forests : list forest; ps_train : bool }.

(** The settings of one forest: permutation.py:72-99 and the defaults of
    forest_classifier.py:14-44 and forest_regressor.py:13-43 (DEFAULT_NUM_BINS = 11,
    BATCH_SIZE = 1000). *)
Definition forest_cfg (c : pcfg) (seed : nat) : fcfg :=
  {| fc_class := pc_class c; fc_n := pc_trees c; fc_max_depth := pc_depth c; fc_bootstrap := true;
     fc_fsub := pc_fsub c; fc_min_split := 2; fc_min_imp := 0%Qc; fc_max_leaves := pc_leaves c;
     fc_bin := LINEAR; fc_nb := 11; fc_crit := GINI; fc_splitter := BEST; fc_solver := pc_solver c;
     fc_seed := seed; fc_repl := false; fc_boosting := false; fc_lr := None; fc_make_discrete := false;
     fc_precomp_minmax := false; fc_log_split := false; fc_dyn_eps := false; fc_eps := pc_eps c;
     fc_oob := true; fc_batch := 1000; fc_alpha_N := 1%Qc; fc_alpha_F := 1%Qc |}.

(** __init__, permutation.py:29-66. *)
Definition perm_new (P : prng) (c : pcfg) (seed : nat) (e : env) : res (pstate * env) :=
  do _ <- guard (1 <? pc_forests c) AssertionError;
  Ok ({| ps_gen := seed_gen P seed; ps_forests := []; ps_train := false |}, set_seed P seed e).

(** train_forest, permutation.py:68-104. *)
Definition train_forest (M : math) (P : prng) (c : pcfg) (s : pstate) (seed : nat) (h : heap) (e : env)
  : res (pstate * heap * env) :=
  do fe <- forest_new P (forest_cfg c seed) (Some (pc_data c)) (Some (pc_labels c)) None (pc_budget c) h e;
  do r <- forest_fit M P (forest_cfg c seed) (fst fe) (None, None) h (snd fe);
  let '(f, h, e) := r in
  Ok ({| ps_gen := ps_gen s; ps_forests := ps_forests s ++ [f]; ps_train := ps_train s |}, h, e).

(** train_forests, permutation.py:106-114: each seed is drawn from the object's own generator. *)
Definition train_forests (M : math) (P : prng) (c : pcfg) (s : pstate) (h : heap) (e : env)
  : res (pstate * heap * env) :=
  foldM (fun she _ =>
           let '(s, h, e) := she in
           let (seed, gen') := draw (ps_gen s) in
           train_forest M P c {| ps_gen := gen'; ps_forests := ps_forests s; ps_train := ps_train s |} seed h e)
        (s, h, e) (seq 0 (pc_forests c)).

Definition set_forest (s : pstate) (i : nat) (f : forest) (gen : tape) : pstate :=
  {| ps_gen := gen; ps_forests := set_nth i f (ps_forests s); ps_train := ps_train s |}.

(** np.sum(forest.predict_batch(data)[0] == labels): predicted labels of a classifier, the
    first prediction (compared with every label) of a regressor. *)
Definition model_hits (is_class : bool) (ps : list fpred) (labels : list Qc) : res nat :=
  if is_class then
    do ls <- mapM (fun p => match p with FClass l _ => Ok l | FNanClass l => Ok l | _ => Err TypeError end) ps;
    do _ <- guard (length ls =? length labels) Unmodelled;
    Ok (length (filter (fun lp => qeq (fst lp) (snd lp)) (combine ls labels)))
  else
    do p <- nth_res ps 0;
    match p with
    | FReg v => Ok (length (filter (qeq v) labels))
    | FNanReg => Ok 0
    | _ => Err TypeError
    end.

Definition xabs (a : xn) : xn :=
  match a with Fin x => Fin (if qle 0 x then x else - x)%Qc | PInf | NInf => PInf | NaN => NaN end.

(** rng.shuffle of one column. *)
Definition shuffle_column (data : list (list Qc)) (f : nat) (gen : tape) : list (list Qc) * tape :=
  let (p, gen') := pick_k (length data) (arange (length data)) gen in
  (map (fun ri => set_nth f (nth f (nth (snd ri) data []) 0%Qc) (fst ri)) (combine data p), gen').

(** The settings a forest was trained with do not matter for prediction beyond
    [fc_class], [fc_boosting] and [fc_lr], so any seed will do below. *)
Definition any_cfg (c : pcfg) : fcfg := forest_cfg c 0.

(** compute_importance_vec, permutation.py:116-139. *)
Definition compute_importance_vec (c : pcfg) (s : pstate) (i : nat) (h : heap) : res (list xn * pstate) :=
  do _ <- guard (ps_train s) AssertionError;
  do f <- nth_res (ps_forests s) i;
  match pc_score c with
  | IImpurity =>
      do r <- calculate_mdi f;
      Ok (map xopp (fst r), set_forest s i (snd r) (ps_gen s))
  | IPermutation =>
      do pf <- forest_predict_batch (any_cfg c) f (pc_data c);
      do la <- nth_res h (pc_labels c);
      do hits <- model_hits (pc_class c) (fst pf) (la_vals la);
      do r0 <- nth_res (pc_data c) 0;
      do r <- foldM (fun acc j =>
                let '(vec, f, gen) := acc in
                let (d, gen') := shuffle_column (pc_data c) j gen in
                do sf <- get_oob_score (any_cfg c) f h (Some d);
                Ok (vec ++ [xabs (xsub (Fin (Nq hits)) (fst sf))], snd sf, gen'))
              ([], snd pf, ps_gen s) (seq 0 (length r0));
      let '(vec, f, gen) := r in
      Ok (vec, set_forest s i f gen)
  | IOther => Err NotImplementedError
  end.

(** get_importance_array, permutation.py:141-160 (np.vstack of rows of equal length). *)
Definition get_importance_array (M : math) (P : prng) (c : pcfg) (s : pstate) (h : heap) (e : env)
  : res (list (list xn) * pstate * heap * env) :=
  do she <- train_forests M P c {| ps_gen := ps_gen s; ps_forests := ps_forests s; ps_train := true |} h e;
  let '(s, h, e) := she in
  do r <- foldM (fun acc i =>
            do v <- compute_importance_vec c (snd acc) i h;
            Ok (fst acc ++ [fst v], snd v)) ([], s) (seq 0 (length (ps_forests s)));
  Ok (fst r, snd r, h, e).

(** run_baseline, permutation.py:262-267, for finite importances. *)
Definition finite_rows (rows : list (list xn)) : res (list (list Qc)) :=
  mapM (mapM (fun x => match x with Fin q => Ok q | _ => Err Unmodelled end)) rows.
Definition run_baseline (argsort : list Qc -> list nat) (M : math) (P : prng) (c : pcfg) (s : pstate)
  (k : option Z) (h : heap) (e : env) : res (xn * pstate * heap * env) :=
  do r <- get_importance_array M P c s h e;
  let '(rows, s, h, e) := r in
  do imp <- finite_rows rows;
  do v <- match k with
          | None => do q <- stability_pairwise (pc_metric c) imp; Ok (Fin q)
          | Some k => stability_freq argsort imp k
          end;
  Ok (v, s, h, e).

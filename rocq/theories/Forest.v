(** Model of data_structures/forest_base.py, forest_classifier.py, forest_regressor.py and
    utils/boosting.py. *)
From Coq Require Import List Arith Bool ZArith QArith Qcanon Lia.
From Verif Require Import Base Num Rng Histogram Utils Criteria Solvers Tree.
Import ListNotations.
Local Open Scope nat_scope.

(** ** utils/boosting.py *)
Inductive loss := CELoss | MSELoss | LossOther.

(** DEFAULT_GRAD_SMOOTHING_VAL = 1e-5, constants.py:47. *)
Definition smoothing : Qc := Q2Qc (1 # 100000).

(** find_gradient, boosting.py:9-26, one element.  For another loss the function falls off
    the end and returns None. *)
Definition find_gradient (l : loss) (pred target : Qc) : option xn :=
  match l with
  | CELoss => Some (xopp (xdiv (Fin (target + smoothing)%Qc) (Fin (pred + smoothing)%Qc)))
  | _ => None
  end.

(** find_hessian, boosting.py:29-44, one element. *)
Definition find_hessian (l : loss) (pred target : Qc) : option xn :=
  match l with
  | CELoss => Some (xdiv (Fin (target + smoothing)%Qc) (Fin (pred * pred + smoothing)%Qc))
  | _ => None
  end.

(** get_next_targets, boosting.py:47-65, one element (numpy applies it elementwise); None
    operands raise TypeError.  Division follows IEEE rules. *)
Definition get_next_target (l : loss) (is_class : bool) (target pred : Qc) : res xn :=
  if is_class then
    do g <- opt_res (find_gradient l pred target) TypeError;
    do h <- opt_res (find_hessian l pred target) TypeError;
    Ok (xdiv (xopp g) h)
  else Ok (Fin (target - pred)%Qc).

(** ** Label arrays live in a heap so that aliasing is visible *)

(** A label array: integer dtype or float dtype. *)
Record larr := { la_int : bool; la_vals : list Qc }.
Definition heap := list larr.

(** Conversion float -> int truncates towards zero. *)
Definition trunc (q : Qc) : Qc :=
  if qle 0 q then Zq (qfloor q) else Zq (- qfloor (- q)%Qc)%Z.

(** a.astype(np.int32): a fresh integer array (overflow not modelled). *)
Definition astype_int (h : heap) (r : nat) : res (heap * nat) :=
  do a <- nth_res h r;
  Ok (h ++ [{| la_int := true; la_vals := map trunc (la_vals a) |}], length h).

(** a[idcs] = vals in place; integer arrays truncate. *)
Definition store (h : heap) (r : nat) (idcs : list nat) (vals : list Qc) : res heap :=
  do a <- nth_res h r;
  do _ <- guard (forallb (fun i => i <? length (la_vals a)) idcs) IndexError;
  let conv v := if la_int a then trunc v else v in
  let vs := fold_left (fun l iv => set_nth (fst iv) (conv (snd iv)) l) (combine idcs vals) (la_vals a) in
  Ok (set_nth r {| la_int := la_int a; la_vals := vs |} h).

(** ** ForestBase *)
Record fcfg := {
  fc_class : bool;
  fc_n : nat;                       (* n_estimators *)
  fc_max_depth : depthlim;
  fc_bootstrap : bool;
  fc_fsub : fsub;
  fc_min_split : nat;
  fc_min_imp : Qc;
  fc_max_leaves : option nat;
  fc_bin : bintype;
  fc_nb : nat;
  fc_crit : measure;
  fc_splitter : splitter;
  fc_solver : solver;
  fc_seed : nat;
  fc_repl : bool;
  fc_boosting : bool;
  fc_lr : option Qc;
  fc_make_discrete : bool;
  fc_precomp_minmax : bool;
  fc_log_split : bool;
  fc_dyn_eps : bool;
  fc_eps : Qc;
  fc_oob : bool;
  fc_batch : nat;
  fc_alpha_N : Qc;
  fc_alpha_F : Qc
}.

(** Mutable state of a forest.  Each tree is stored with the settings it was built with.
    [f_classes]: the dict; when a ForestClassifier is built without labels and classes,
    np.unique(None) gives the single class None, which no numeric label equals: it is
    rendered as an empty dict with [f_ncl] = 1. *)
Record forest := {
  f_data : option (list (list Qc));
  f_org : option nat;
  f_new : option nat;
  f_trees : list (tcfg * tree);
  f_classes : cdict;
  f_ncl : nat;
  f_dd : option ddict;
  f_minmax : option (list Qc * list Qc);
  f_budget : option Z;
  f_queries : nat;
  f_oob : list (list nat);
  f_mdg : option (list xn);
  f_gen : tape
}.

(** ForestBase.__init__, forest_base.py:30-134, and the class dict of ForestClassifier,
    forest_classifier.py:45-52.  [labels] is the caller's array. *)
Definition forest_new (P : prng) (c : fcfg) (data : option (list (list Qc))) (labels : option nat)
  (classes : option cdict) (budget : option Z) (h : heap) (e : env) : res (forest * env) :=
  do cls <- (if fc_class c then
               match classes with
               | Some d => Ok (d, length d)
               | None =>
                   match labels with
                   | Some r => do a <- nth_res h r;
                               let d := class_to_idx (unique (la_vals a)) in Ok (d, length d)
                   | None => Ok ([], 1)
                   end
               end
             else Ok ([], 0));
  let e := set_seed P (fc_seed c) e in
  do _ <- guard (negb (fc_boosting c && match fc_lr c with None => true | _ => false end))
                GenericException;
  do _ <- guard (negb (fc_boosting c && fc_class c)) NotImplementedError;
  do _ <- guard (negb (fc_oob c) || fc_bootstrap c) AssertionError;
  Ok ({| f_data := data; f_org := labels; f_new := labels; f_trees := []; f_classes := fst cls;
         f_ncl := snd cls; f_dd := None; f_minmax := None; f_budget := budget; f_queries := 0;
         f_oob := []; f_mdg := None; f_gen := seed_gen P (fc_seed c) |}, e).

(** get_out_of_bag, forest_base.py:136-144. np.intersect1d of the sample with arange(n) is
    the set of sampled indices below n; marking them -1 and filtering leaves the others. *)
Definition get_out_of_bag (idcs : list nat) (n : nat) : list nat :=
  filter (fun i => negb (existsb (Nat.eqb i) idcs)) (arange n).

(** int(q): truncation towards zero. *)
Definition ztrunc (q : Qc) : Z := if qle 0 q then qfloor q else (- qfloor (- q)%Qc)%Z.
(** int(N * alpha), then rng.choice(N, ., replace=False), forest_base.py:194-200 (the product
    is exact here, a float in the code). *)
Definition alpha_choice (N : nat) (alpha : Qc) (gen : tape) : res (list nat * tape) :=
  let z := ztrunc (Nq N * alpha)%Qc in
  if (z <? 0)%Z then Err ValueError else choice_norepl (arange N) (Z.to_nat z) gen.

(** The per-tree settings, forest_base.py:229-281.  criterion and splitter are not passed, so
    the tree classes' defaults apply (tree_classifier.py:30-31, tree_regressor.py:28-29). *)
Definition tree_cfg (c : fcfg) (classes : cdict) (minmax : option (list Qc * list Qc)) : tcfg :=
  {| tc_class := fc_class c; tc_max_depth := fc_max_depth c; tc_classes := classes;
     tc_fsub := fc_fsub c; tc_min_split := fc_min_split c; tc_min_imp := fc_min_imp c;
     tc_max_leaves := fc_max_leaves c; tc_bin := fc_bin c; tc_nb := fc_nb c;
     tc_crit := if fc_class c then GINI else MSE; tc_splitter := BEST;
     tc_solver := fc_solver c; tc_repl := fc_repl c; tc_make_discrete := false;
     tc_minmax := minmax; tc_log_split := fc_log_split c; tc_dyn_eps := fc_dyn_eps c;
     tc_eps := fc_eps c; tc_batch := fc_batch c |}.

(** BUFFER = 1000000, constants.py:5. *)
Definition buffer : Z := 1000000.

(** The test at forest_base.py:286-289. *)
Definition keep_tree (budget : option Z) (q : nat) : bool :=
  match budget with
  | None => true
  | Some b => (0 <? Z.of_nat q)%Z && (Z.of_nat q <? b + buffer)%Z
  end.

Definition preds_reg (l : list pred) : res (list Qc) :=
  mapM (fun p => match p with PReg v => Ok v | PClass _ _ => Err TypeError end) l.

(** The rows and columns of one tree, forest_base.py:194-203 and 215-221: row indices,
    feature indices, the out-of-bag list to append, generator after the first part and after
    the second. *)
Definition subset_draw (c : fcfg) (N F : nat) (gen : tape) : res (list nat * list nat * tape) :=
  if qlt (fc_alpha_N c) 1%Qc || qlt (fc_alpha_F c) 1%Qc then
    do a <- alpha_choice N (fc_alpha_N c) gen;
    do b <- alpha_choice F (fc_alpha_F c) (snd a);
    Ok (fst a, fst b, snd b)
  else Ok (arange N, arange F, gen).

Record fstate := { fs_f : forest; fs_e : env; fs_h : heap; fs_stop : bool }.

Definition upd_forest (f : forest) (trees : list (tcfg * tree)) (budget : option Z) (q : nat)
  (oob : list (list nat)) (gen : tape) : forest :=
  {| f_data := f_data f; f_org := f_org f; f_new := f_new f; f_trees := trees;
     f_classes := f_classes f; f_ncl := f_ncl f; f_dd := f_dd f; f_minmax := f_minmax f;
     f_budget := budget; f_queries := q; f_oob := oob; f_mdg := f_mdg f; f_gen := gen |}.

(** The boosting update, forest_base.py:294-321 (regression only: the constructor rejects
    boosting in classification).  self.new_targets is updated in place. *)
Definition boost (c : fcfg) (i : nat) (tc : tcfg) (t : tree) (data : list (list Qc)) (idcs : list nat)
  (newr : nat) (h : heap) : res (tree * heap) :=
  do rows <- take_idx data idcs;
  do pb <- tree_predict_batch tc t rows;
  do ps <- preds_reg (fst pb);
  do lr <- opt_res (fc_lr c) TypeError;
  let ps := if i =? 0 then ps else map (fun p => (p * lr)%Qc) ps in
  do a <- nth_res h newr;
  do old <- take_idx (la_vals a) idcs;
  do xs <- mapM (fun tp => get_next_target MSELoss false (fst tp) (snd tp)) (combine old ps);
  do h' <- store h newr idcs (map nan_to_num xs);
  Ok (snd pb, h').

(** One iteration of the loop over estimators, forest_base.py:193-327. *)
Definition fit_tree (M : math) (P : prng) (c : fcfg) (data : list (list Qc)) (F : nat)
  (s : fstate) (i : nat) : res fstate :=
  if fs_stop s then Ok s else
  let f := fs_f s in
  let N := length data in
  do sub <- subset_draw c N F (f_gen f);
  let '(rows, feats, gen1) := sub in
  if match f_budget f with Some b => (b <=? 0)%Z | None => false end then
    Ok {| fs_f := upd_forest f (f_trees f) (f_budget f) (f_queries f) (f_oob f) gen1;
          fs_e := fs_e s; fs_h := fs_h s; fs_stop := true |}
  else
  do orgr <- opt_res (f_org f) TypeError;
  do newr <- opt_res (f_new f) TypeError;
  do bs <- (if fc_bootstrap c then choice_repl rows N gen1 else Ok (rows, gen1));
  let '(rows, gen2) := bs in
  let oob := if fc_bootstrap c && fc_oob c then f_oob f ++ [get_out_of_bag rows N] else f_oob f in
  let '(seed, np') := draw (e_np (fs_e s)) in
  let e := set_np (fs_e s) np' in
  do la <- nth_res (fs_h s) (if fc_class c then orgr else if fc_boosting c then newr else orgr);
  let tc := tree_cfg c (f_classes f) (f_minmax f) in
  let ta := {| ta_data := data; ta_labels := la_vals la; ta_budget := f_budget f; ta_dd := f_dd f;
               ta_seed := seed; ta_idcs := Some rows; ta_feats := Some feats |} in
  do te <- tree_new P tc ta e;
  do te <- tree_fit M tc (fst te) (None, None) (snd te);
  let '(t, e) := te in
  if negb (keep_tree (f_budget f) (t_queries t)) then
    Ok {| fs_f := upd_forest f (f_trees f) (f_budget f) (f_queries f) oob gen2;
          fs_e := e; fs_h := fs_h s; fs_stop := true |}
  else
  do th <- (if fc_boosting c then boost c i tc t data rows newr (fs_h s) else Ok (t, fs_h s));
  let '(t, h) := th in
  let b' := match f_budget f with None => None | Some b => Some (b - Z.of_nat (t_queries t))%Z end in
  do _ <- guard (match b' with None => true | Some b => (- buffer <? b)%Z end) AssertionError;
  Ok {| fs_f := upd_forest f (f_trees f ++ [(tc, t)]) b' (f_queries f + t_queries t) oob gen2;
        fs_e := e; fs_h := h; fs_stop := false |}.

(** data.min(axis=0), data.max(axis=0), forest_base.py:182-185. *)
Definition col_minmax (data : list (list Qc)) (F : nat) : res (list Qc * list Qc) :=
  do mn <- mapM (fun f => do c <- col data f; list_min c) (seq 0 F);
  do mx <- mapM (fun f => do c <- col data f; list_max c) (seq 0 F);
  Ok (mn, mx).

(** ForestBase.fit, forest_base.py:160-327.  Labels are passed by reference. *)
Definition forest_fit (M : math) (P : prng) (c : fcfg) (f : forest)
  (arg : option (list (list Qc)) * option nat) (h : heap) (e : env) : res (forest * heap * env) :=
  do dol <- match arg with
            | (None, None) => Ok (f_data f, f_org f, f_new f)
            | (Some d, Some r) => Ok (Some d, Some r, Some r)
            | _ => Err GenericException
            end;
  let '(od, org, new) := dol in
  do data <- opt_res od TypeError;
  do r0 <- nth_res data 0;
  let F := length r0 in
  do ohn <- (if fc_class c then
               do o <- opt_res org AttributeError;
               do n <- opt_res new AttributeError;
               do a <- astype_int h o;
               do b <- astype_int (fst a) n;
               Ok (Some (snd a), Some (snd b), fst b)
             else Ok (org, new, h));
  let '(org, new, h) := ohn in
  let mkd := match fc_bin c with LINEAR | IDENTITY => false | _ => fc_make_discrete c end in
  do dd <- (if mkd : bool then do d <- data_to_discrete data 10; Ok (Some d) else Ok (f_dd f));
  do mm <- (if fc_precomp_minmax c then do m <- col_minmax data F; Ok (Some m) else Ok (f_minmax f));
  let f1 := {| f_data := Some data; f_org := org; f_new := new; f_trees := [];
               f_classes := f_classes f; f_ncl := f_ncl f; f_dd := dd; f_minmax := mm;
               f_budget := f_budget f; f_queries := f_queries f;
               f_oob := if fc_oob c then [] else f_oob f; f_mdg := f_mdg f; f_gen := f_gen f |} in
  do s <- foldM (fit_tree M P c data F) {| fs_f := f1; fs_e := e; fs_h := h; fs_stop := false |}
                (seq 0 (fc_n c));
  Ok (fs_f s, fs_h s, fs_e s).

(** ** Prediction *)

(** Result of predict; without trees numpy's mean of an empty array is nan. *)
Inductive fpred := FClass (label : Qc) (probs : list Qc) | FReg (v : Qc)
                 | FNanClass (label : Qc) | FNanReg.

(** Predictions of all trees on one point, threading the trees' caches. *)
Fixpoint trees_predict (ts : list (tcfg * tree)) (x : list Qc) : res (list pred * list (tcfg * tree)) :=
  match ts with
  | [] => Ok ([], [])
  | (tc, t) :: rest =>
      do r <- tree_predict tc t x;
      do rs <- trees_predict rest x;
      Ok (fst r :: fst rs, (tc, snd r) :: snd rs)
  end.

Definition set_trees (f : forest) (ts : list (tcfg * tree)) : forest :=
  upd_forest f ts (f_budget f) (f_queries f) (f_oob f) (f_gen f).

(** agg_preds.mean(axis=0): column means of T rows of length n_classes; a row of another
    length raises ValueError on assignment. *)
Definition probs_of (k : nat) (p : pred) : res (list Qc) :=
  match p with
  | PClass _ pr => do _ <- guard (length pr =? k) ValueError; Ok pr
  | PReg _ => Err TypeError
  end.
Definition col_means (k : nat) (rows : list (list Qc)) : list Qc :=
  map (fun j => qmean (map (fun r => nth j r 0%Qc) rows)) (seq 0 k).

(** ForestBase.predict, forest_base.py:329-359. *)
Definition forest_predict (c : fcfg) (f : forest) (x : list Qc) : res (fpred * forest) :=
  do pt <- trees_predict (f_trees f) x;
  let '(ps, ts) := pt in
  let f' := set_trees f ts in
  if fc_class c then
    do rows <- mapM (probs_of (f_ncl f)) ps;
    match rows with
    | [] => do k <- nth_res (map fst (f_classes f)) 0; Ok (FNanClass k, f')
    | _ =>
        let avg := col_means (f_ncl f) rows in
        do i <- argmax avg;
        do l <- nth_res (map fst (f_classes f)) i;
        Ok (FClass l avg, f')
    end
  else
    do vs <- preds_reg ps;
    if fc_boosting c then
      match vs with
      | [] => Err UnboundLocalError
      | v :: rest =>
          do lr <- opt_res (fc_lr c) TypeError;
          Ok (FReg (fold_left (fun a p => (a + lr * p)%Qc) rest v), f')
      end
    else match vs with
         | [] => Ok (FNanReg, f')
         | _ => Ok (FReg (qmean vs), f')
         end.

(** predict_batch of the forest classes, classifier.py:7-18, regressor.py:7-17. *)
Fixpoint forest_predict_batch (c : fcfg) (f : forest) (xs : list (list Qc)) : res (list fpred * forest) :=
  match xs with
  | [] => Ok ([], f)
  | x :: rest =>
      do r <- forest_predict c f x;
      do rs <- forest_predict_batch c (snd r) rest;
      Ok (fst r :: fst rs, snd rs)
  end.

(** ** get_oob_score, forest_base.py:361-397 *)

(** oob_score_array[idcs] += rows; oob_counts_array[idcs] += 1.  The index lists are
    duplicate free, so += with fancy indexing adds once per index. *)
Definition add_rows (acc : list (list Qc * nat)) (idcs : list nat) (rows : list (list Qc))
  : list (list Qc * nat) :=
  fold_left (fun acc ir =>
    match nth_error acc (fst ir) with
    | Some (v, k) => set_nth (fst ir) (map (fun p => (fst p + snd p)%Qc) (combine v (snd ir)), S k) acc
    | None => acc
    end) (combine idcs rows) acc.

Definition pred_row (is_class : bool) (p : pred) : res (list Qc) :=
  match p, is_class with
  | PClass _ pr, true => Ok pr
  | PReg v, false => Ok [v]
  | _, _ => Err TypeError
  end.

Fixpoint oob_accumulate (is_class : bool) (data : list (list Qc)) (ts : list (tcfg * tree))
  (oob : list (list nat)) (acc : list (list Qc * nat)) : res (list (list Qc * nat) * list (tcfg * tree)) :=
  match ts with
  | [] => Ok (acc, [])
  | (tc, t) :: rest =>
      do idcs <- nth_res oob 0;
      do _ <- guard (forallb (fun i => i <? length acc) idcs) IndexError;
      do rows <- take_idx data idcs;
      do pb <- tree_predict_batch tc t rows;
      do prs <- mapM (pred_row is_class) (fst pb);
      do r <- oob_accumulate is_class data rest (tl oob) (add_rows acc idcs prs);
      Ok (fst r, (tc, snd pb) :: snd r)
  end.

Definition get_oob_score (c : fcfg) (f : forest) (h : heap) (data : option (list (list Qc)))
  : res (xn * forest) :=
  do d <- opt_res (match data with Some d => Some d | None => f_data f end) TypeError;
  do r <- opt_res (f_org f) TypeError;
  do la <- nth_res h r;
  let k := if fc_class c then length (f_classes f) else 1 in
  let zero := map (fun _ => (repeat 0%Qc k, 0)) (la_vals la) in
  do at_ <- oob_accumulate (fc_class c) d (f_trees f) (f_oob f) zero;
  let '(acc, ts) := at_ in
  let kept := filter (fun lv => negb (snd (snd lv) =? 0)) (combine (la_vals la) acc) in
  let m := Nq (length kept) in
  if fc_class c then
    do hits <- mapM (fun lv => do i <- argmax (fst (snd lv));
                               Ok (if qeq (fst lv) (Nq i) then 1%Qc else 0%Qc)) kept;
    Ok (xdiv (Fin (qsum hits)) (Fin m), set_trees f ts)
  else
    let errs := map (fun lv =>
        let cnt := Nq (snd (snd lv)) in
        let oob_pred := (nth 0 (fst (snd lv)) 0 / cnt)%Qc in
        let d := (fst lv - oob_pred / cnt)%Qc in (d * d)%Qc) kept in
    Ok (xdiv (Fin (qsum errs)) (Fin m), set_trees f ts).

(** ** calculate_mdi, forest_base.py:399-421 *)

Definition add_at (l : list xn) (i : nat) (v : xn) : res (list xn) :=
  do x <- nth_res l i; Ok (set_nth i (xadd x v) l).

(** recursive_mdi_helper, forest_base.py:411-421 (fuel: the number of nodes). *)
Fixpoint mdi_helper (ns : list node) (fuel : nat) (id : nat) (arr : list xn) : res (list xn) :=
  do nd <- nth_res ns id;
  do arr <- match nd_red nd with
            | None => Ok arr
            | Some r => do sf <- opt_res (nd_sf nd) IndexError; add_at arr sf r
            end;
  match nd_left nd with
  | None => Ok arr
  | Some l =>
      match fuel with
      | 0 => Err OutOfFuel
      | S fuel' =>
          do arr <- mdi_helper ns fuel' l arr;
          do r <- opt_res (nd_right nd) AttributeError;
          mdi_helper ns fuel' r arr
      end
  end.

Definition calculate_mdi (f : forest) : res (list xn * forest) :=
  match f_mdg f with
  | Some a => Ok (a, f)
  | None =>
      do data <- opt_res (f_data f) TypeError;
      do r0 <- nth_res data 0;
      do arr <- foldM (fun a ct => mdi_helper (t_nodes (snd ct)) (length (t_nodes (snd ct))) 0 a)
                      (repeat (Fin 0) (length r0)) (f_trees f);
      Ok (arr, {| f_data := f_data f; f_org := f_org f; f_new := f_new f; f_trees := f_trees f;
                  f_classes := f_classes f; f_ncl := f_ncl f; f_dd := f_dd f; f_minmax := f_minmax f;
                  f_budget := f_budget f; f_queries := f_queries f; f_oob := f_oob f;
                  f_mdg := Some arr; f_gen := f_gen f |})
  end.

(** reset, forest_base.py:423-429.  It stores the argument in self.budget, an attribute
    nothing reads; remaining_budget, mdg_array, new_targets and the generator stay. *)
Definition forest_reset (c : fcfg) (f : forest) (budget : option Z) : forest :=
  {| f_data := None; f_org := None; f_new := f_new f; f_trees := [];
     f_classes := f_classes f; f_ncl := f_ncl f; f_dd := f_dd f; f_minmax := f_minmax f;
     f_budget := f_budget f; f_queries := 0;
     f_oob := if fc_oob c then [] else f_oob f; f_mdg := f_mdg f; f_gen := f_gen f |}.

(** Model of data_structures/node.py, tree_base.py, tree_classifier.py, tree_regressor.py,
    classifier.py and regressor.py. *)
From Coq Require Import List Arith Bool ZArith QArith Qcanon Lia.
From Verif Require Import Base Num Rng Histogram Utils Criteria Solvers.
Import ListNotations.
Local Open Scope nat_scope.

(** max_depth: None, float("inf") or an int. *)
Inductive depthlim := DNone | DInf | DFin (d : Z).
Inductive solver := MAB | EXACT | SolverOther.
Inductive splitter := BEST | DEPTH | SplitterOther.

(** Constructor arguments of TreeBase that never change afterwards, tree_base.py:35-142.
    [tc_classes] is only used in classification (TreeClassifier asserts it is given). *)
Record tcfg := {
  tc_class : bool;
  tc_max_depth : depthlim;
  tc_classes : cdict;
  tc_fsub : fsub;
  tc_min_split : nat;
  tc_min_imp : Qc;
  tc_max_leaves : option nat;
  tc_bin : bintype;
  tc_nb : nat;
  tc_crit : measure;
  tc_splitter : splitter;
  tc_solver : solver;
  tc_repl : bool;
  tc_make_discrete : bool;
  tc_minmax : option (list Qc * list Qc);
  tc_log_split : bool;
  tc_dyn_eps : bool;
  tc_eps : Qc;
  tc_batch : nat
}.

(** class Node, node.py:29-106.  [nd_data]/[nd_labels] become None after [del] (node.py:239).
    Constant settings that every node copies from the tree are read from [tcfg]; num_bins is
    kept per node because use_logarithmic_split overwrites it (node.py:117-118). *)
Record node := {
  nd_feats : list nat;
  nd_idcs : list nat;
  nd_parent : option nat;
  nd_data : option (list (list Qc));
  nd_labels : option (list Qc);
  nd_n : nat;
  nd_bins : nat;
  nd_depth : nat;
  nd_prop : Qc;
  nd_left : option nat;
  nd_right : option nat;
  nd_dd : option ddict;
  nd_minmax : option (list Qc * list Qc);
  nd_counts : list nat;
  nd_split_done : bool;
  nd_sf : option nat;      (* split_feature: column of the original data *)
  nd_psf : option nat;     (* prev_split_feature: column of the node's data *)
  nd_sv : option Qc;       (* split_value *)
  nd_computed : bool;      (* best_reduction_computed *)
  nd_queries : nat;
  nd_red : option xn;      (* split_reduction *)
  nd_splittable : option bool;
  nd_probs : option (list Qc);
  nd_plabel : option Qc;
  nd_pval : option Qc
}.

(** Mutable part of TreeBase.  Nodes are kept in a list and referred to by position
    (creation order); position 0 is the root. *)
Record tree := {
  t_data : list (list Qc);
  t_labels : list Qc;
  t_n : nat;
  t_dd : option ddict;
  t_feats : list nat;
  t_nodes : list node;
  t_leaves : list nat;
  t_budget : option Z;
  t_queries : nat;
  t_splits : nat;
  t_depth : nat
}.

(** Reindex minmax, node.py:78-85. *)
Definition reindex_minmax (mm : option (list Qc * list Qc)) (feats : list nat)
  : res (option (list Qc * list Qc)) :=
  match mm with
  | None => Ok None
  | Some (mn, mx) =>
      do a <- take_idx mn feats; do b <- take_idx mx feats; Ok (Some (a, b))
  end.

(** Node.__init__, node.py:30-106.  The remapped discrete features computed at lines 55-58
    are discarded by line 75, which stores the tree's own dictionary. *)
Definition node_new (c : tcfg) (t : tree) (parent : option nat) (idcs : list nat)
  (depth : nat) (prop : Qc) (bins : nat) (e : env) : res (node * env) :=
  do fg <- choose_features (t_feats t) (tc_fsub c) (e_gen e);
  let '(feats, gen') := fg in
  let e := set_gen e gen' in
  do _ <- match t_dd t with
          | None => Ok tt
          | Some d => do _ <- remap_discrete_features feats d; Ok tt
          end;
  do data <- get_subset_2d (t_data t) idcs feats;
  do labels <- take_idx (t_labels t) idcs;
  do mm <- reindex_minmax (tc_minmax c) feats;
  do counts <- (if tc_class c then counts_of_labels (tc_classes c) labels else Ok []);
  Ok ({| nd_feats := feats; nd_idcs := idcs; nd_parent := parent; nd_data := Some data;
         nd_labels := Some labels; nd_n := length labels; nd_bins := bins; nd_depth := depth;
         nd_prop := prop; nd_left := None; nd_right := None; nd_dd := t_dd t; nd_minmax := mm;
         nd_counts := counts; nd_split_done := false; nd_sf := None; nd_psf := None; nd_sv := None;
         nd_computed := false; nd_queries := 0; nd_red := None; nd_splittable := None;
         nd_probs := None; nd_plabel := None; nd_pval := None |}, e).

Definition with_solution (nd : node) (bins : nat) (sf psf : option nat) (sv : option Qc)
  (r : option xn) (q : nat) : node :=
  {| nd_feats := nd_feats nd; nd_idcs := nd_idcs nd; nd_parent := nd_parent nd; nd_data := nd_data nd;
     nd_labels := nd_labels nd; nd_n := nd_n nd; nd_bins := bins; nd_depth := nd_depth nd;
     nd_prop := nd_prop nd; nd_left := nd_left nd; nd_right := nd_right nd; nd_dd := nd_dd nd;
     nd_minmax := nd_minmax nd; nd_counts := nd_counts nd; nd_split_done := nd_split_done nd;
     nd_sf := sf; nd_psf := psf; nd_sv := sv; nd_computed := true; nd_queries := q;
     nd_red := r; nd_splittable := nd_splittable nd; nd_probs := nd_probs nd;
     nd_plabel := nd_plabel nd; nd_pval := nd_pval nd |}.

Definition with_splittable (nd : node) (b : bool) : node :=
  {| nd_feats := nd_feats nd; nd_idcs := nd_idcs nd; nd_parent := nd_parent nd; nd_data := nd_data nd;
     nd_labels := nd_labels nd; nd_n := nd_n nd; nd_bins := nd_bins nd; nd_depth := nd_depth nd;
     nd_prop := nd_prop nd; nd_left := nd_left nd; nd_right := nd_right nd; nd_dd := nd_dd nd;
     nd_minmax := nd_minmax nd; nd_counts := nd_counts nd; nd_split_done := nd_split_done nd;
     nd_sf := nd_sf nd; nd_psf := nd_psf nd; nd_sv := nd_sv nd; nd_computed := nd_computed nd;
     nd_queries := nd_queries nd; nd_red := nd_red nd; nd_splittable := Some b;
     nd_probs := nd_probs nd; nd_plabel := nd_plabel nd; nd_pval := nd_pval nd |}.

(** The end of Node.split, node.py:229-239. *)
Definition with_children (nd : node) (l r : nat) : node :=
  {| nd_feats := nd_feats nd; nd_idcs := nd_idcs nd; nd_parent := nd_parent nd; nd_data := None;
     nd_labels := None; nd_n := nd_n nd; nd_bins := nd_bins nd; nd_depth := nd_depth nd;
     nd_prop := nd_prop nd; nd_left := Some l; nd_right := Some r; nd_dd := nd_dd nd;
     nd_minmax := nd_minmax nd; nd_counts := nd_counts nd; nd_split_done := true;
     nd_sf := nd_sf nd; nd_psf := nd_psf nd; nd_sv := nd_sv nd; nd_computed := nd_computed nd;
     nd_queries := nd_queries nd; nd_red := nd_red nd; nd_splittable := nd_splittable nd;
     nd_probs := None; nd_plabel := None; nd_pval := None |}.

Definition with_preds (nd : node) (p : option (list Qc)) (l v : option Qc) : node :=
  {| nd_feats := nd_feats nd; nd_idcs := nd_idcs nd; nd_parent := nd_parent nd; nd_data := nd_data nd;
     nd_labels := nd_labels nd; nd_n := nd_n nd; nd_bins := nd_bins nd; nd_depth := nd_depth nd;
     nd_prop := nd_prop nd; nd_left := nd_left nd; nd_right := nd_right nd; nd_dd := nd_dd nd;
     nd_minmax := nd_minmax nd; nd_counts := nd_counts nd; nd_split_done := nd_split_done nd;
     nd_sf := nd_sf nd; nd_psf := nd_psf nd; nd_sv := nd_sv nd; nd_computed := nd_computed nd;
     nd_queries := nd_queries nd; nd_red := nd_red nd; nd_splittable := nd_splittable nd;
     nd_probs := p; nd_plabel := l; nd_pval := v |}.

(** The solver call of calculate_best_split, node.py:117-153; returns the (possibly
    overwritten) number of bins as well. *)
Definition node_solve (M : math) (c : tcfg) (nd : node) (budget : option Z) (e : env)
  : res (sres * nat * env) :=
  let bins := if tc_log_split c then Nat.log2 (nd_n nd) + 1 else nd_bins nd in
  let eps := if tc_dyn_eps c then (tc_eps c * m_sqrt M (Nq (nd_depth nd)))%Qc else tc_eps c in
  do data <- opt_res (nd_data nd) AttributeError;
  do labels <- opt_res (nd_labels nd) AttributeError;
  let sc := {| s_class := tc_class c; s_measure := tc_crit c; s_bin := tc_bin c; s_nb := bins;
               s_minmax := nd_minmax nd; s_dd := nd_dd nd |} in
  match tc_solver c with
  | MAB =>
      let sc := {| s_class := tc_class c;
                   s_measure := match tc_crit c with MAuto => (if tc_class c then GINI else MSE) | x => x end;
                   s_bin := tc_bin c; s_nb := bins; s_minmax := nd_minmax nd; s_dd := nd_dd nd |} in
      do r <- solve_mab M sc eps (tc_repl c) budget (tc_batch c) data labels 0%Qc e;
      Ok (fst r, bins, snd r)
  | EXACT => do r <- solve_exactly M sc data labels 0%Qc e; Ok (fst r, bins, snd r)
  | SolverOther => Err GenericException
  end.

(** Node.calculate_best_split, node.py:108-177: the node with its cache filled, the returned
    reduction (None when there is no split). *)
Definition calculate_best_split (M : math) (c : tcfg) (nd : node) (budget : option Z) (e : env)
  : res (node * option xn * env) :=
  if nd_computed nd then Ok (nd, nd_red nd, e) else
  do r <- node_solve M c nd budget e;
  let '(s, bins, e') := r in
  match s with
  | Found f v red q =>
      do sf <- nth_res (nd_feats nd) f;
      let red' := xmul red (Fin (nd_prop nd)) in
      Ok (with_solution nd bins (Some sf) (Some f) (Some v) (Some red') q, Some red', e')
  | NoSplit q =>
      Ok (with_solution nd bins (nd_sf nd) (nd_psf nd) (nd_sv nd) (nd_red nd) q, None, e')
  end.

Definition set_nodes (t : tree) (ns : list node) : tree :=
  {| t_data := t_data t; t_labels := t_labels t; t_n := t_n t; t_dd := t_dd t; t_feats := t_feats t;
     t_nodes := ns; t_leaves := t_leaves t; t_budget := t_budget t; t_queries := t_queries t;
     t_splits := t_splits t; t_depth := t_depth t |}.
Definition set_leaves (t : tree) (l : list nat) : tree :=
  {| t_data := t_data t; t_labels := t_labels t; t_n := t_n t; t_dd := t_dd t; t_feats := t_feats t;
     t_nodes := t_nodes t; t_leaves := l; t_budget := t_budget t; t_queries := t_queries t;
     t_splits := t_splits t; t_depth := t_depth t |}.
Definition set_depth (t : tree) (d : nat) : tree :=
  {| t_data := t_data t; t_labels := t_labels t; t_n := t_n t; t_dd := t_dd t; t_feats := t_feats t;
     t_nodes := t_nodes t; t_leaves := t_leaves t; t_budget := t_budget t; t_queries := t_queries t;
     t_splits := t_splits t; t_depth := d |}.
Definition inc_splits (t : tree) : tree :=
  {| t_data := t_data t; t_labels := t_labels t; t_n := t_n t; t_dd := t_dd t; t_feats := t_feats t;
     t_nodes := t_nodes t; t_leaves := t_leaves t; t_budget := t_budget t; t_queries := t_queries t;
     t_splits := S (t_splits t); t_depth := t_depth t |}.
(** self.num_queries += q; self.remaining_budget -= q, tree_base.py:268-271. *)
Definition pay (t : tree) (q : nat) : tree :=
  {| t_data := t_data t; t_labels := t_labels t; t_n := t_n t; t_dd := t_dd t; t_feats := t_feats t;
     t_nodes := t_nodes t; t_leaves := t_leaves t;
     t_budget := match t_budget t with None => None | Some b => Some (b - Z.of_nat q)%Z end;
     t_queries := t_queries t + q; t_splits := t_splits t; t_depth := t_depth t |}.

Definition put_node (t : tree) (id : nat) (nd : node) : tree := set_nodes t (set_nth id nd (t_nodes t)).

(** create_child_node, node.py:179-195. *)
Definition create_child (c : tcfg) (t : tree) (pid : nat) (nd : node) (labels : list Qc)
  (idcs : list nat) (e : env) : res (node * env) :=
  node_new c t (Some pid) idcs (S (nd_depth nd))
           (nd_prop nd * (Nq (length idcs) / Nq (length labels)))%Qc (nd_bins nd) e.

(** Node.split, node.py:197-239. *)
Definition node_split (M : math) (c : tcfg) (t : tree) (id : nat) (e : env) : res (tree * env) :=
  do nd0 <- nth_res (t_nodes t) id;
  do _ <- guard (negb (nd_split_done nd0)) GenericException;
  do ne <- match nd_sf nd0 with
           | Some _ => Ok (nd0, e)
           | None => do r <- calculate_best_split M c nd0 None e; Ok (fst (fst r), snd r)
           end;
  let '(nd, e) := ne in
  match nd_red nd with
  | None => Ok (put_node t id nd, e)
  | Some red =>
      do _ <- guard (xlt red (Fin 0)) AssertionError;
      do data <- opt_res (nd_data nd) AttributeError;
      do labels <- opt_res (nd_labels nd) AttributeError;
      do f <- opt_res (nd_psf nd) AttributeError;
      do v <- opt_res (nd_sv nd) TypeError;
      do cl <- col data f;
      let L := map snd (filter (fun p => qle (fst p) v) (combine cl (nd_idcs nd))) in
      let R := map snd (filter (fun p => qlt v (fst p)) (combine cl (nd_idcs nd))) in
      if (length L =? 0) || (length R =? 0) then Err AttributeError else
      do le <- create_child c t id nd labels L e;
      do re <- create_child c t id nd labels R (snd le);
      let k := length (t_nodes t) in
      let t1 := put_node t id (with_children nd k (S k)) in
      Ok (set_nodes t1 (t_nodes t1 ++ [fst le; fst re]), snd re)
  end.

(** check_splittable_constraints, tree_base.py:151-164 (short-circuit [and]). *)
Definition check_constraints (c : tcfg) (nd : node) : res bool :=
  do deep <- match tc_max_depth c with
             | DNone => Err TypeError
             | DInf => Ok true
             | DFin d => Ok (Z.of_nat (nd_depth nd) <? d)%Z
             end;
  if negb deep then Ok false else
  if negb (tc_min_split c <? nd_n nd) then Ok false else
  do labels <- opt_res (nd_labels nd) AttributeError;
  Ok (1 <? length (unique labels)).

(** check_splittable, tree_base.py:166-191. *)
Definition check_splittable (M : math) (c : tcfg) (t : tree) (nd : node) (e : env)
  : res (bool * node * env) :=
  do ok <- check_constraints c nd;
  if negb ok then Ok (false, nd, e) else
  do r1 <- calculate_best_split M c nd None e;
  let '(nd1, o1, e1) := r1 in
  match o1 with
  | None => Ok (false, nd1, e1)
  | Some _ =>
      do r2 <- calculate_best_split M c nd1 None e1;
      let '(nd2, o2, e2) := r2 in
      do red <- opt_res o2 TypeError;
      Ok (xlt (xdiv (xmul red (Fin (Nq (nd_n nd2)))) (Fin (Nq (t_n t)))) (Fin (tc_min_imp c)), nd2, e2)
  end.

(** State of the scan over the leaves, tree_base.py:240-284.  [sc_best]: position in the
    leaf list, node and reduction of the best leaf so far; [sc_stop]: the loop broke. *)
Record scan := {
  sc_tree : tree; sc_env : env;
  sc_best : option (nat * nat * xn);
  sc_stop : bool
}.

(** One iteration of the for loop, tree_base.py:248-284. *)
Definition scan_leaf (M : math) (c : tcfg) (s : scan) (pl : nat * nat) : res scan :=
  if sc_stop s then Ok s else
  let '(pos, id) := pl in
  let t := sc_tree s in
  do nd <- nth_res (t_nodes t) id;
  do ok <- check_constraints c nd;
  if negb ok then
    Ok {| sc_tree := put_node t id (with_splittable nd false); sc_env := sc_env s;
          sc_best := sc_best s; sc_stop := false |}
  else
  if match t_budget t with None => false | Some b => (b <=? 0)%Z end then
    Ok {| sc_tree := t; sc_env := sc_env s; sc_best := sc_best s; sc_stop := true |}
  else
  let already := nd_computed nd in
  do r <- calculate_best_split M c nd (t_budget t) (sc_env s);
  let '(nd1, red, e1) := r in
  let t1 := put_node t id nd1 in
  let t2 := if already then t1 else pay t1 (nd_queries nd1) in
  do q <- match nd_splittable nd1 with
          | Some b => Ok (b, nd1, e1)
          | None => do k <- check_splittable M c t2 nd1 e1;
                    let '(b, nd2, e2) := k in Ok (b, with_splittable nd2 b, e2)
          end;
  let '(spl, nd3, e3) := q in
  let t3 := put_node t2 id nd3 in
  let best :=
    match red with
    | None => sc_best s
    | Some x =>
        let cur := match sc_best s with None => PInf | Some (_, _, y) => y end in
        if xlt x cur && spl then Some (pos, id, x) else sc_best s
    end in
  Ok {| sc_tree := t3; sc_env := e3; sc_best := best; sc_stop := false |}.

(** get_depth, tree_base.py:144-149: max() of an empty list raises ValueError. *)
Definition get_depth (t : tree) : res nat :=
  do ds <- mapM (fun id => do nd <- nth_res (t_nodes t) id; Ok (nd_depth nd)) (t_leaves t);
  match ds with [] => Err ValueError | _ => Ok (fold_right Nat.max 0 ds) end.

(** One iteration of the best-first loop after the max_leaf_nodes test,
    tree_base.py:239-307; the boolean is sufficient_impurity_decrease. *)
Definition fit_step (M : math) (c : tcfg) (t : tree) (e : env) : res (tree * env * bool) :=
  do s <- foldM (scan_leaf M c)
                {| sc_tree := t; sc_env := e; sc_best := None; sc_stop := false |}
                (combine (seq 0 (length (t_leaves t))) (t_leaves t));
  let t1 := sc_tree s in
  let e1 := sc_env s in
  do tec <- match sc_best s with
            | Some (pos, id, x) =>
                if xlt x (Fin (tc_min_imp c)) then
                  do te <- node_split M c t1 id e1;
                  let t2 := inc_splits (fst te) in
                  let lv := remove_nth pos (t_leaves t2) in
                  do nd <- nth_res (t_nodes t2) id;
                  let t2 := put_node t2 id (with_preds nd None None (nd_pval nd)) in
                  let lv := match nd_left nd, nd_right nd with
                            | Some l, Some r => lv ++ [l; r]
                            | _, _ => lv
                            end in
                  Ok (set_leaves t2 lv, snd te, true)
                else Ok (t1, e1, false)
            | None => Ok (t1, e1, false)
            end;
  let '(t3, e3, cont) := tec in
  do d <- get_depth t3;
  Ok (set_depth t3 d, e3, cont).

(** The while loop, tree_base.py:229-307. *)
Fixpoint fit_loop (M : math) (c : tcfg) (fuel : nat) (t : tree) (e : env) : res (tree * env) :=
  let full := match tc_max_leaves c with
              | None => Ok false
              | Some m => if length (t_leaves t) =? m then Ok true
                          else if m <? length (t_leaves t) then Err GenericException
                          else Ok false
              end in
  do stop <- full;
  if stop then Ok (t, e) else
  match fuel with
  | 0 => Err OutOfFuel
  | S fuel' =>
      do r <- fit_step M c t e;
      let '(t', e', cont) := r in
      if cont then fit_loop M c fuel' t' e' else Ok (t', e')
  end.

Definition leaf_rows (t : tree) : nat :=
  sum_nat (map (fun id => match nth_error (t_nodes t) id with Some nd => nd_n nd | None => 0 end)
               (t_leaves t)).

(** TreeBase.fit, tree_base.py:207-319.  [arg]: the optional (data, labels) arguments, each
    optional.  fit only rebinds self.data/self.labels: the root node was built by the
    constructor. *)
Definition tree_fit (M : math) (c : tcfg) (t : tree) (arg : option (list (list Qc)) * option (list Qc))
  (e : env) : res (tree * env) :=
  do t <- match arg with
          | (None, None) => Ok t
          | (Some d, Some l) =>
              Ok {| t_data := d; t_labels := l; t_n := length l; t_dd := t_dd t; t_feats := t_feats t;
                    t_nodes := t_nodes t; t_leaves := t_leaves t; t_budget := t_budget t;
                    t_queries := t_queries t; t_splits := t_splits t; t_depth := t_depth t |}
          | _ => Err GenericException
          end;
  let mkd := match tc_bin c with LINEAR | IDENTITY => false | _ => tc_make_discrete c end in
  do t <- (if mkd : bool then
             do d <- data_to_discrete (t_data t) 10;
             Ok {| t_data := t_data t; t_labels := t_labels t; t_n := t_n t; t_dd := Some d;
                   t_feats := t_feats t; t_nodes := t_nodes t; t_leaves := t_leaves t;
                   t_budget := t_budget t; t_queries := t_queries t; t_splits := t_splits t;
                   t_depth := t_depth t |}
           else Ok t);
  match tc_splitter c with
  | BEST =>
      let t := set_leaves t (t_leaves t ++ [0]) in
      fit_loop M c (S (leaf_rows t)) t e
  | DEPTH | SplitterOther => Err GenericException
  end.

(** Seeds to generator states: arbitrary functions (the PRNG is not modelled). *)
Record prng := { seed_gen : nat -> tape; seed_np : nat -> tape; seed_py : nat -> tape }.

(** set_seed, utils.py:35-37. *)
Definition set_seed (P : prng) (s : nat) (e : env) : env :=
  set_py (set_np e (seed_np P s)) (seed_py P s).

(** Constructor arguments that become mutable state. *)
Record targs := {
  ta_data : list (list Qc);
  ta_labels : list Qc;
  ta_budget : option Z;
  ta_dd : option ddict;
  ta_seed : nat;
  ta_idcs : option (list nat);
  ta_feats : option (list nat)
}.

(** TreeBase.__init__, tree_base.py:35-142 (data and labels given). *)
Definition tree_new (P : prng) (c : tcfg) (a : targs) (e : env) : res (tree * env) :=
  do _ <- guard (length (ta_data a) =? length (ta_labels a)) AssertionError;
  let e := set_gen (set_seed P (ta_seed a) e) (seed_gen P (ta_seed a)) in
  do feats <- match ta_feats a with
              | Some l => Ok l
              | None => do r0 <- nth_res (ta_data a) 0; Ok (arange (length r0))
              end;
  let n := length (ta_labels a) in
  let idcs := match ta_idcs a with Some l => l | None => arange n end in
  let t0 := {| t_data := ta_data a; t_labels := ta_labels a; t_n := n; t_dd := ta_dd a;
               t_feats := feats; t_nodes := []; t_leaves := []; t_budget := ta_budget a;
               t_queries := 0; t_splits := 0; t_depth := 1 |} in
  do ne <- node_new c t0 None idcs 0 1%Qc (tc_nb c) e;
  Ok (set_nodes t0 [fst ne], snd ne).

(** ** Prediction *)
Inductive pred := PClass (label : Qc) (probs : list Qc) | PReg (v : Qc).

(** The while loop of predict, tree_base.py:349-353. *)
Fixpoint walk (ns : list node) (fuel : nat) (id : nat) (x : list Qc) : res nat :=
  do nd <- nth_res ns id;
  match nd_left nd with
  | None => match nd_right nd with None => Ok id | Some _ => Err AssertionError end
  | Some l =>
      match fuel with
      | 0 => Err OutOfFuel
      | S fuel' =>
          do f <- opt_res (nd_sf nd) IndexError;
          do v <- opt_res (nd_sv nd) TypeError;
          do xv <- nth_res x f;
          if qle xv v then walk ns fuel' l x
          else do r <- opt_res (nd_right nd) AttributeError; walk ns fuel' r x
      end
  end.

(** idx_to_class[i] (tree_base.py:78): with duplicate indices the last key wins. *)
Fixpoint idx_to_class (d : cdict) (i : nat) : option Qc :=
  match d with
  | [] => None
  | (k, v) :: t => match idx_to_class t i with
                   | Some x => Some x
                   | None => if v =? i then Some k else None
                   end
  end.

(** TreeBase.predict, tree_base.py:338-373, with the node caches.  np.allclose is modelled
    by exact equality (exact arithmetic). *)
Definition tree_predict (c : tcfg) (t : tree) (x : list Qc) : res (pred * tree) :=
  do id <- walk (t_nodes t) (length (t_nodes t)) 0 x;
  do nd <- nth_res (t_nodes t) id;
  if tc_class c then
    match nd_probs nd with
    | Some p => do l <- opt_res (nd_plabel nd) TypeError; Ok (PClass l p, t)
    | None =>
        let s := sum_nat (nd_counts nd) in
        let probs := map (fun k => (Nq k / Nq s)%Qc) (nd_counts nd) in
        do i <- argmax probs;
        do l <- opt_res (idx_to_class (tc_classes c) i) KeyError;
        do _ <- guard (negb (s =? 0) && qeq (qsum probs) 1%Qc) AssertionError;
        Ok (PClass l probs, put_node t id (with_preds nd (Some probs) (Some l) (nd_pval nd)))
    end
  else
    match nd_pval nd with
    | Some v => Ok (PReg v, t)
    | None =>
        do labels <- opt_res (nd_labels nd) AttributeError;
        do _ <- guard (negb (length labels =? 0)) Unmodelled;
        let v := qmean labels in
        Ok (PReg v, put_node t id (with_preds nd (nd_probs nd) (nd_plabel nd) (Some v)))
    end.

(** predict_batch, classifier.py:7-18 and regressor.py:7-17. *)
Fixpoint tree_predict_batch (c : tcfg) (t : tree) (xs : list (list Qc)) : res (list pred * tree) :=
  match xs with
  | [] => Ok ([], t)
  | x :: rest =>
      do r <- tree_predict c t x;
      do rs <- tree_predict_batch c (snd r) rest;
      Ok (fst r :: fst rs, snd rs)
  end.

(** Specification vocabulary for forests. *)
From Coq Require Import List Arith Bool ZArith QArith Qcanon Lia Permutation.
From Verif Require Import Base Num Rng Histogram Utils Criteria Solvers Tree Forest Spec SolverSpec TreeSpec.
Import ListNotations.
Local Open Scope nat_scope.

(** Tree t0 after some calls of predict. *)
Definition warmed (tc : tcfg) (t0 t : tree) : Prop := exists xs ps, tree_predict_batch tc t0 xs = Ok (ps, t).

(** A tree built from the arguments a, possibly used for predictions since. *)
Definition grown (P : prng) (M : math) (tc : tcfg) (a : targs) (t : tree) : Prop :=
  exists e t0, built P M tc a e t0 /\ warmed tc t0 t.

(** Calls that use a fitted forest without fitting or resetting it. *)
Inductive used (c : fcfg) (h : heap) : forest -> forest -> Prop :=
| used_not f : used c h f f
| used_predict f f1 f2 x p : used c h f f1 -> forest_predict c f1 x = Ok (p, f2) -> used c h f f2
| used_batch f f1 f2 xs ps : used c h f f1 -> forest_predict_batch c f1 xs = Ok (ps, f2) -> used c h f f2
| used_oob f f1 f2 d s : used c h f f1 -> get_oob_score c f1 h d = Ok (s, f2) -> used c h f f2
| used_mdi f f1 f2 arr : used c h f f1 -> calculate_mdi f1 = Ok (arr, f2) -> used c h f f2.

(** What the trees of the forest answer on x, in order. *)
Definition votes (f : forest) (x : list Qc) (ps : list pred) : Prop :=
  Forall2 (fun ct p => answer (tree_predict (fst ct) (snd ct) x) = Ok p) (f_trees f) ps.

(** At least one row remains after row subsampling. *)
Definition some_rows (c : fcfg) (N : nat) : Prop :=
  1 <= N /\ (qlt (fc_alpha_N c) 1%Qc || qlt (fc_alpha_F c) 1%Qc = true -> (1 <= ztrunc (Nq N * fc_alpha_N c)%Qc)%Z).
(** Every tree sees all rows, once and in order. *)
Definition all_rows (c : fcfg) : Prop :=
  fc_bootstrap c = false /\ (1 <= fc_alpha_N c)%Qc /\ (1 <= fc_alpha_F c)%Qc.

(** The mean of the j-th probability. *)
Definition prob_of (p : pred) (j : nat) : Qc := match p with PClass _ l => nth j l 0%Qc | PReg _ => 0%Qc end.
Definition value_of (p : pred) : Qc := match p with PClass _ _ => 0%Qc | PReg v => v end.

(** The prediction of a boosted forest from its trees' predictions. *)
Definition boosted (lr : Qc) (vs : list Qc) : Qc :=
  match vs with [] => 0%Qc | v :: rest => (v + lr * total rest)%Qc end.

(** The table and the label array a call of fit works on: its arguments, or those stored. *)
Definition fit_data (f : forest) (arg : option (list (list Qc)) * option nat) : option (list (list Qc)) :=
  match fst arg with Some d => Some d | None => f_data f end.
Definition fit_ref (f : forest) (arg : option (list (list Qc)) * option nat) : option nat :=
  match snd arg with Some r => Some r | None => f_org f end.
(** The array that boosting overwrites. *)
Definition boost_ref (f : forest) (arg : option (list (list Qc)) * option nat) : option nat :=
  match snd arg with Some r => Some r | None => f_new f end.
(** The labels the trees are trained on: a classifier truncates them to integers. *)
Definition fit_labels (c : fcfg) (f : forest) (arg : option (list (list Qc)) * option nat) (h : heap) : option (list Qc) :=
  match fit_ref f arg with
  | None => None
  | Some r => match nth_error h r with
              | None => None
              | Some a => Some (if fc_class c then map trunc (la_vals a) else la_vals a)
              end
  end.

(** The position of every class in the dictionary is its index (as in the dictionary a
    forest builds for itself). *)
Definition in_order (d : cdict) : Prop := forall i k j, nth_error d i = Some (k, j) -> j = i.

(** The number of features each tree of a forest over W columns may use. *)
Definition feats_per_tree (c : fcfg) (W : nat) : Z :=
  if qlt (fc_alpha_N c) 1%Qc || qlt (fc_alpha_F c) 1%Qc then ztrunc (Nq W * fc_alpha_F c)%Qc else Z.of_nat W.

(** A well-formed call of fit: a non-empty rectangular table with at least one column and one
    label per row; labels that are known classes (after truncation to integers); between one
    and all rows and columns per tree; between one and all features per node; a numeric
    max_depth; room for one leaf; boosting only for regression and with a learning rate. *)
Record forest_trainable (c : fcfg) (f : forest) (arg : option (list (list Qc)) * option nat) (h : heap) (data : list (list Qc)) (W : nat) : Prop := {
  ft_arg : fst arg = None <-> snd arg = None;
  ft_data : fit_data f arg = Some data;
  ft_rows : 1 <= length data;
  ft_cols : 1 <= W;
  ft_rect : rectangular W data;
  ft_labels : exists r n la lb, fit_ref f arg = Some r /\ boost_ref f arg = Some n /\ nth_error h r = Some la /\ nth_error h n = Some lb /\
                length (la_vals la) = length data /\ length (la_vals lb) = length data /\
                (fc_class c = true -> forall y, In y (la_vals la) -> In (trunc y) (map fst (f_classes f)));
  ft_classes : fc_class c = true -> forall k i, In (k, i) (f_classes f) -> i < length (f_classes f);
  ft_draws : qlt (fc_alpha_N c) 1%Qc || qlt (fc_alpha_F c) 1%Qc = true ->
               (1 <= ztrunc (Nq (length data) * fc_alpha_N c)%Qc <= Z.of_nat (length data))%Z /\ (1 <= ztrunc (Nq W * fc_alpha_F c)%Qc <= Z.of_nat W)%Z;
  ft_sub : match fc_fsub c with
           | FSNone | FSSqrt => True
           | FSInt k => (1 <= k <= feats_per_tree c W)%Z
           | FSFloat r => (0 < r)%Qc /\ (r <= 1)%Qc
           | FSOther => False
           end;
  ft_depth : fc_max_depth c <> DNone;
  ft_leaves : fc_max_leaves c <> Some 0;
  ft_boost : fc_boosting c = true -> fc_class c = false /\ fc_lr c <> None;
  ft_dd : dd_fine (f_dd f);
  ft_minmax : fc_precomp_minmax c = false -> f_minmax f = None
}.

(** At least m thresholds at every node of every tree: IDENTITY or RANDOM bins; LINEAR bins
    over ranges computed in advance with no constant column; or LINEAR bins over the range of
    each node, with all columns considered everywhere, rows with equal features labelled
    equally, and no boosting. *)
Definition forest_bins (c : fcfg) (data : list (list Qc)) (labels : list Qc) (W m : nat) : Prop :=
  (fc_bin c = LINEAR \/ fc_bin c = RANDOM -> if fc_log_split c then m <= 2 else m <= fc_nb c) /\
  match fc_bin c with
  | LINEAR =>
      if fc_precomp_minmax c
      then forall f, f < W -> exists i j, i < length data /\ j < length data /\ cell data i f <> cell data j f
      else fc_fsub c = FSNone /\ (1 <= fc_alpha_N c)%Qc /\ (1 <= fc_alpha_F c)%Qc /\ fc_boosting c = false /\
           forall i j, i < length data -> j < length data -> (forall f, f < W -> cell data i f = cell data j f) -> nth i labels 0%Qc = nth j labels 0%Qc
  | IDENTITY | RANDOM => True
  | _ => False
  end.

(** One iteration of fit without the assertion that the budget was not exceeded. *)
Definition fit_tree_unasserted (M : math) (P : prng) (c : fcfg) (data : list (list Qc)) (F : nat)
  (s : fstate) (i : nat) : res fstate :=
  if fs_stop s then Ok s else
  let f := fs_f s in
  let N := length data in
  do sub <- subset_draw c N F (f_gen f);
  let '(rows, feats, gen1) := sub in
  if match f_budget f with Some b => (b <=? 0)%Z | None => false end then
    Ok {| fs_f := upd_forest f (f_trees f) (f_budget f) (f_queries f) (f_oob f) gen1;
          fs_e := fs_e s; fs_h := fs_h s; fs_stop := true |}
  else
  do orgr <- opt_res (f_org f) TypeError;
  do newr <- opt_res (f_new f) TypeError;
  do bs <- (if fc_bootstrap c then choice_repl rows N gen1 else Ok (rows, gen1));
  let '(rows, gen2) := bs in
  let oob := if fc_bootstrap c && fc_oob c then f_oob f ++ [get_out_of_bag rows N] else f_oob f in
  let '(seed, np') := draw (e_np (fs_e s)) in
  let e := set_np (fs_e s) np' in
  do la <- nth_res (fs_h s) (if fc_class c then orgr else if fc_boosting c then newr else orgr);
  let tc := tree_cfg c (f_classes f) (f_minmax f) in
  let ta := {| ta_data := data; ta_labels := la_vals la; ta_budget := f_budget f; ta_dd := f_dd f;
               ta_seed := seed; ta_idcs := Some rows; ta_feats := Some feats |} in
  do te <- tree_new P tc ta e;
  do te <- tree_fit M tc (fst te) (None, None) (snd te);
  let '(t, e) := te in
  if negb (keep_tree (f_budget f) (t_queries t)) then
    Ok {| fs_f := upd_forest f (f_trees f) (f_budget f) (f_queries f) oob gen2;
          fs_e := e; fs_h := fs_h s; fs_stop := true |}
  else
  do th <- (if fc_boosting c then boost c i tc t data rows newr (fs_h s) else Ok (t, fs_h s));
  let '(t, h) := th in
  let b' := match f_budget f with None => None | Some b => Some (b - Z.of_nat (t_queries t))%Z end in
  Ok {| fs_f := upd_forest f (f_trees f ++ [(tc, t)]) b' (f_queries f + t_queries t) oob gen2;
        fs_e := e; fs_h := h; fs_stop := false |}.

(** The trees that did not see row i, and what they answer on the point x. *)
Definition left_out (f : forest) (i : nat) : list (tcfg * tree) :=
  map fst (filter (fun tl => existsb (Nat.eqb i) (snd tl)) (combine (f_trees f) (f_oob f))).
Definition oob_votes (f : forest) (x : list Qc) (i : nat) (ps : list pred) : Prop :=
  Forall2 (fun ct p => answer (tree_predict (fst ct) (snd ct) x) = Ok p) (left_out f i) ps.

(** Rows with at least one vote; the mean of g over them (nan if there are none). *)
Definition covered (V : nat -> list pred) (n : nat) : list nat :=
  filter (fun i => match V i with [] => false | _ => true end) (seq 0 n).
Definition mean_over (I : list nat) (g : nat -> Qc) : xn :=
  match I with [] => NaN | _ => Fin (mean (map g I)) end.

(** The mean squared error of the out-of-bag predictions, and the accuracy: the out-of-bag
    prediction of a row is the mean value, or a class of maximal mean probability, of the
    trees that did not see it. *)
Definition oob_mse (V : nat -> list pred) (ys : list Qc) : xn :=
  mean_over (covered V (length ys)) (fun i => let d := (nth i ys 0 - mean (map value_of (V i)))%Qc in (d * d)%Qc).
Definition oob_mean_prob (V : nat -> list pred) (i j : nat) : Qc := mean (map (fun p => prob_of p j) (V i)).
(** Index of the first class with maximal mean out-of-bag probability. *)
Definition oob_class (V : nat -> list pred) (K i j : nat) : Prop :=
  j < K /\ (forall j', j' < K -> (oob_mean_prob V i j' <= oob_mean_prob V i j)%Qc) /\
  (forall j', j' < j -> (oob_mean_prob V i j' < oob_mean_prob V i j)%Qc).

(** The points get_oob_score predicts: its argument, or the table of the last fit. *)
Definition points (data : list (list Qc)) (d : option (list (list Qc))) : list (list Qc) := match d with Some x => x | None => data end.

Definition below0 (x : xn) : Prop := xlt x (Fin 0) = true.
(** The queries the trees made. *)
Definition spent (ts : list (tcfg * tree)) : nat := list_sum (map (fun ct => t_queries (snd ct)) ts).

(** Sum of reductions. *)
Definition xtotal (l : list xn) : xn := fold_right xadd (Fin 0) l.
(** The reductions recorded for feature j in the nodes of a tree whose best split was
    computed, and those of the splits that were made. *)
Definition evaluated (t : tree) (j : nat) : list xn :=
  flat_map (fun nd => match nd_sf nd, nd_red nd with Some s, Some x => if s =? j then [x] else [] | _, _ => [] end) (t_nodes t).
Definition made (t : tree) (j : nat) : list xn :=
  flat_map (fun nd => match nd_left nd, nd_sf nd, nd_red nd with Some _, Some s, Some x => if s =? j then [x] else [] | _, _, _ => [] end) (t_nodes t).

(** Anything a user may do with a forest. *)
Inductive lives (M : math) (P : prng) (c : fcfg) : forest -> forest -> Prop :=
| lives_not f : lives M P c f f
| lives_fit f f1 f2 arg h e h' e' : lives M P c f f1 -> forest_fit M P c f1 arg h e = Ok (f2, h', e') -> lives M P c f f2
| lives_predict f f1 f2 x p : lives M P c f f1 -> forest_predict c f1 x = Ok (p, f2) -> lives M P c f f2
| lives_batch f f1 f2 xs ps : lives M P c f f1 -> forest_predict_batch c f1 xs = Ok (ps, f2) -> lives M P c f f2
| lives_oob f f1 f2 h d s : lives M P c f f1 -> get_oob_score c f1 h d = Ok (s, f2) -> lives M P c f f2
| lives_mdi f f1 f2 arr : lives M P c f f1 -> calculate_mdi f1 = Ok (arr, f2) -> lives M P c f f2
| lives_reset f f1 b : lives M P c f f1 -> lives M P c f (forest_reset c f1 b).

(** The same settings with another criterion and splitter. *)
Definition with_criterion (c : fcfg) (m : measure) (s : splitter) : fcfg :=
  {| fc_class := fc_class c; fc_n := fc_n c; fc_max_depth := fc_max_depth c; fc_bootstrap := fc_bootstrap c; fc_fsub := fc_fsub c;
     fc_min_split := fc_min_split c; fc_min_imp := fc_min_imp c; fc_max_leaves := fc_max_leaves c; fc_bin := fc_bin c; fc_nb := fc_nb c;
     fc_crit := m; fc_splitter := s; fc_solver := fc_solver c; fc_seed := fc_seed c; fc_repl := fc_repl c; fc_boosting := fc_boosting c;
     fc_lr := fc_lr c; fc_make_discrete := fc_make_discrete c; fc_precomp_minmax := fc_precomp_minmax c; fc_log_split := fc_log_split c;
     fc_dyn_eps := fc_dyn_eps c; fc_eps := fc_eps c; fc_oob := fc_oob c; fc_batch := fc_batch c; fc_alpha_N := fc_alpha_N c; fc_alpha_F := fc_alpha_F c |}.

(** The same uninitialised memory: everything numpy's allocator would return. *)
Definition same_memory (e e' : env) : Prop := e_mem e = e_mem e' /\ e_calls e = e_calls e'.

(** The importance array of a forest: one entry per column of the table, the sum over all
    trees and all nodes whose best split is on that column of the recorded reductions. *)
Definition importance (data : list (list Qc)) (arr : list xn) (f : forest) : Prop :=
  (exists r0, nth_error data 0 = Some r0 /\ length arr = length r0) /\
  forall j v, nth_error arr j = Some v -> v = xtotal (flat_map (fun ct => evaluated (snd ct) j) (f_trees f)).

(** The number of rows drawn for each tree of a forest over N rows. *)
Definition rows_per_tree (c : fcfg) (N : nat) : Z :=
  if qlt (fc_alpha_N c) 1%Qc || qlt (fc_alpha_F c) 1%Qc then ztrunc (Nq N * fc_alpha_N c)%Qc else Z.of_nat N.
(** The rows and columns of one tree: distinct rows and columns of the announced numbers; with
    bootstrap the tree sees N draws from those rows. *)
Definition sampled (c : fcfg) (N F : nat) (rows feats : list nat) : Prop :=
  exists pool, NoDup pool /\ (forall i, In i pool -> i < N) /\ Z.of_nat (length pool) = rows_per_tree c N /\
    (if fc_bootstrap c then length rows = N /\ (forall i, In i rows -> In i pool) else rows = pool) /\
    NoDup feats /\ (forall j, In j feats -> j < F) /\ Z.of_nat (length feats) = feats_per_tree c F.

(** The settings that a forest hands to its trees. *)
Definition honoured (c : fcfg) (f : forest) (tc : tcfg) : Prop :=
  tc_class tc = fc_class c /\ tc_max_depth tc = fc_max_depth c /\ tc_fsub tc = fc_fsub c /\ tc_min_split tc = fc_min_split c /\
  tc_min_imp tc = fc_min_imp c /\ tc_max_leaves tc = fc_max_leaves c /\ tc_bin tc = fc_bin c /\ tc_nb tc = fc_nb c /\
  tc_solver tc = fc_solver c /\ tc_repl tc = fc_repl c /\ tc_log_split tc = fc_log_split c /\ tc_dyn_eps tc = fc_dyn_eps c /\
  tc_eps tc = fc_eps c /\ tc_batch tc = fc_batch c /\ tc_classes tc = f_classes f /\ tc_minmax tc = f_minmax f.

(** What is left of a budget after some trees. *)
Definition remaining (b : option Z) (ts : list (tcfg * tree)) : option Z :=
  match b with None => None | Some z => Some (z - Z.of_nat (spent ts))%Z end.

(** A tree is kept only if budget was left when it was started, it asked something, and it
    overran what was left by less than a million. *)
Definition affordable (b : option Z) (q : nat) : Prop :=
  match b with None => True | Some z => (0 < z)%Z /\ 1 <= q /\ (Z.of_nat q < z + 1000000)%Z end.

(** One round of boosting with tree number k, which saw the given rows: its predictions,
    scaled by the learning rate from the second tree on, are subtracted from the targets of
    these rows; an integer array truncates the result. *)
Record boost_round (c : fcfg) (k : nat) (tc : tcfg) (t : tree) (data : list (list Qc)) (rows : list nat) (int : bool) (ys ys' : list Qc) : Prop := {
  br_length : length ys' = length ys;
  br_seen : forall i, In i rows -> i < length ys /\ exists v lr, answer (tree_predict tc t (nth i data [])) = Ok (PReg v) /\ fc_lr c = Some lr /\
              nth i ys' 0%Qc = let d := (nth i ys 0 - (if k =? 0 then v else lr * v))%Qc in if int then trunc d else d;
  br_rest : forall i, ~ In i rows -> nth i ys' 0%Qc = nth i ys 0%Qc
}.

(** Rounding towards zero: the whole number n with n <= q < n + 1 for q >= 0 and
    n - 1 < q <= n for q < 0. *)
Definition towards_zero (q : Qc) (n : Z) : Prop :=
  ((0 <= q)%Qc -> (Zq n <= q)%Qc /\ (q < Zq n + 1)%Qc) /\ ((q < 0)%Qc -> (Zq n - 1 < q)%Qc /\ (q <= Zq n)%Qc).

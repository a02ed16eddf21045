(** Vocabulary for what a tree does not depend on: the order of the rows, the units of the
    features, the units or names of the labels. *)
From Coq Require Import List Arith Bool ZArith QArith Qcanon Lia Permutation.
From Verif Require Import Base Num Rng Histogram Utils Criteria Solvers Tree Spec SolverSpec TreeSpec.
Import ListNotations.
Local Open Scope nat_scope.

(** A change of units of the features, one function per feature. *)
Definition units := nat -> Qc -> Qc.
Definition same_units : units := fun _ x => x.
Definition move_row (u : units) (x : list Qc) : list Qc := map (fun p => u (fst p) (snd p)) (combine (seq 0 (length x)) x).
Definition increasing (g : Qc -> Qc) : Prop := forall x y, (x < y)%Qc -> (g x < g y)%Qc.
(** Every feature f < W is transformed by an increasing function; with LINEAR bins by
    x |-> k x + d. *)
Definition rescaling (bt : bintype) (W : nat) (u : units) : Prop :=
  forall f, f < W -> increasing (u f) /\ (bt = LINEAR -> exists k d, forall x, u f x = (k * x + d)%Qc).

(** A change of the labels: in regression y |-> k y + d with k <> 0, which multiplies impurities
    by s = k^2; in classification new names for the classes, which leaves impurities alone. *)
Definition relabelling (c : tcfg) (g : Qc -> Qc) (s : Qc) : Prop :=
  if tc_class c
  then s = 1%Qc /\ forall x y, In x (map fst (tc_classes c)) -> In y (map fst (tc_classes c)) -> g x = g y -> x = y
  else exists k d, k <> 0%Qc /\ s = (k * k)%Qc /\ forall y, g y = (k * y + d)%Qc.

(** The same settings, with supplied feature ranges, class names and the required impurity
    decrease expressed in the new units. *)
Definition move_cfg (u : units) (g : Qc -> Qc) (s : Qc) (c : tcfg) : tcfg :=
  {| tc_class := tc_class c; tc_max_depth := tc_max_depth c;
     tc_classes := map (fun p => (g (fst p), snd p)) (tc_classes c);
     tc_fsub := tc_fsub c; tc_min_split := tc_min_split c; tc_min_imp := (s * tc_min_imp c)%Qc;
     tc_max_leaves := tc_max_leaves c; tc_bin := tc_bin c; tc_nb := tc_nb c; tc_crit := tc_crit c;
     tc_splitter := tc_splitter c; tc_solver := tc_solver c; tc_repl := tc_repl c;
     tc_make_discrete := tc_make_discrete c;
     tc_minmax := option_map (fun p => (move_row u (fst p), move_row u (snd p))) (tc_minmax c);
     tc_log_split := tc_log_split c; tc_dyn_eps := tc_dyn_eps c; tc_eps := tc_eps c; tc_batch := tc_batch c |}.

(** The training problem a' has the rows of a in some order, in the new units. *)
Record moved_args (u : units) (g : Qc -> Qc) (a a' : targs) : Prop := {
  ma_rows : Permutation (map (fun i => (move_row u (nth i (ta_data a) []), g (nth i (ta_labels a) 0%Qc))) (train_rows a))
                        (map (fun i => (nth i (ta_data a') [], nth i (ta_labels a') 0%Qc)) (train_rows a'));
  ma_n : length (ta_labels a') = length (ta_labels a);
  ma_len : length (ta_data a') = length (ta_labels a');
  ma_in : forall i, In i (train_rows a') -> i < length (ta_labels a');
  ma_feats : train_feats a' = train_feats a;
  ma_first : ta_feats a' = None -> ta_data a' <> [];
  ma_budget : ta_budget a' = ta_budget a;
  ma_dd : ta_dd a' = ta_dd a;
  ma_seed : ta_seed a' = ta_seed a
}.

Definition move_x (s : Qc) (x : xn) : xn := match x with Fin q => Fin (s * q)%Qc | y => y end.

(** Two nodes with the same place in the tree, the same number of rows and class counts, and
    the same split up to the change of units. *)
Record same_node (u : units) (s : Qc) (nd nd' : node) : Prop := {
  sn_left : nd_left nd' = nd_left nd; sn_right : nd_right nd' = nd_right nd; sn_parent : nd_parent nd' = nd_parent nd;
  sn_depth : nd_depth nd' = nd_depth nd; sn_n : nd_n nd' = nd_n nd; sn_prop : nd_prop nd' = nd_prop nd;
  sn_feats : nd_feats nd' = nd_feats nd; sn_counts : nd_counts nd' = nd_counts nd;
  sn_queries : nd_queries nd' = nd_queries nd;
  sn_sf : nd_sf nd' = nd_sf nd;
  sn_sv : nd_sv nd' = match nd_sf nd with None => None | Some f => option_map (u f) (nd_sv nd) end;
  sn_red : nd_red nd' = option_map (move_x s) (nd_red nd)
}.

(** Two trees of the same shape, with the same splits up to the change of units, that cost the
    same number of queries. *)
Record same_tree (u : units) (s : Qc) (t t' : tree) : Prop := {
  st_nodes : Forall2 (same_node u s) (t_nodes t) (t_nodes t');
  st_leaves : t_leaves t' = t_leaves t; st_queries : t_queries t' = t_queries t;
  st_splits : t_splits t' = t_splits t; st_depth : t_depth t' = t_depth t; st_budget : t_budget t' = t_budget t
}.

(** A prediction in the new units. *)
Definition move_pred (g : Qc -> Qc) (p : pred) : pred :=
  match p with PClass l ps => PClass (g l) ps | PReg v => PReg (g v) end.
Definition move_answer (g : Qc -> Qc) (r : res pred) : res pred :=
  match r with Ok p => Ok (move_pred g p) | Err e => Err e end.

(** The same training problem with its rows in another order: the table, the list of rows to
    use, or both may be rearranged. *)
Record reordered (a a' : targs) : Prop := {
  ro_rows : Permutation (map (fun i => (nth i (ta_data a) [], nth i (ta_labels a) 0%Qc)) (train_rows a))
                        (map (fun i => (nth i (ta_data a') [], nth i (ta_labels a') 0%Qc)) (train_rows a'));
  ro_n : length (ta_labels a') = length (ta_labels a);
  ro_len : length (ta_data a') = length (ta_labels a');
  ro_in : forall i, In i (train_rows a') -> i < length (ta_labels a');
  ro_feats : train_feats a' = train_feats a;
  ro_budget : ta_budget a' = ta_budget a;
  ro_dd : ta_dd a' = ta_dd a;
  ro_seed : ta_seed a' = ta_seed a
}.
(** The same training problem with every feature in new units. *)
Definition rescale_args (u : units) (a : targs) : targs :=
  {| ta_data := map (move_row u) (ta_data a); ta_labels := ta_labels a; ta_budget := ta_budget a;
     ta_dd := ta_dd a; ta_seed := ta_seed a; ta_idcs := ta_idcs a; ta_feats := ta_feats a |}.
(** The same training problem with new labels. *)
Definition relabel_args (g : Qc -> Qc) (a : targs) : targs :=
  {| ta_data := ta_data a; ta_labels := map g (ta_labels a); ta_budget := ta_budget a;
     ta_dd := ta_dd a; ta_seed := ta_seed a; ta_idcs := ta_idcs a; ta_feats := ta_feats a |}.
(** Settings whose supplied ranges are in the new units; settings whose class names are new. *)
Definition rescale_cfg (u : units) (c : tcfg) : tcfg := move_cfg u (fun y => y) 1%Qc c.
Definition relabel_cfg (g : Qc -> Qc) (s : Qc) (c : tcfg) : tcfg := move_cfg same_units g s c.

(** The histogram settings under which the search reads nothing but the table. *)
Definition fixed_grid (c : tcfg) : Prop := tc_solver c = EXACT /\ (tc_bin c = LINEAR \/ tc_bin c = IDENTITY) /\ bins_ok c.

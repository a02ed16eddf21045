(** Vocabulary for what a forest does not depend on: the units of the features, the units or
    names of the labels. *)
From Coq Require Import List Arith Bool ZArith QArith Qcanon Lia.
From Verif Require Import Base Num Rng Histogram Utils Criteria Solvers Tree Forest Spec SolverSpec TreeSpec InvarSpec ForestSpec.
Import ListNotations.
Local Open Scope nat_scope.

(** Every label array in new units; integer arrays stay integer arrays. *)
Definition move_heap (g : Qc -> Qc) (h : heap) : heap :=
  map (fun la => {| la_int := la_int la; la_vals := map g (la_vals la) |}) h.
(** The arguments of fit with the features in new units. *)
Definition move_arg (u : units) (arg : option (list (list Qc)) * option nat) : option (list (list Qc)) * option nat :=
  (option_map (map (move_row u)) (fst arg), snd arg).
(** The same settings, the required impurity decrease multiplied by s. *)
Definition move_fcfg (s : Qc) (c : fcfg) : fcfg :=
  {| fc_class := fc_class c; fc_n := fc_n c; fc_max_depth := fc_max_depth c; fc_bootstrap := fc_bootstrap c;
     fc_fsub := fc_fsub c; fc_min_split := fc_min_split c; fc_min_imp := (s * fc_min_imp c)%Qc;
     fc_max_leaves := fc_max_leaves c; fc_bin := fc_bin c; fc_nb := fc_nb c; fc_crit := fc_crit c;
     fc_splitter := fc_splitter c; fc_solver := fc_solver c; fc_seed := fc_seed c; fc_repl := fc_repl c;
     fc_boosting := fc_boosting c; fc_lr := fc_lr c; fc_make_discrete := fc_make_discrete c;
     fc_precomp_minmax := fc_precomp_minmax c; fc_log_split := fc_log_split c; fc_dyn_eps := fc_dyn_eps c;
     fc_eps := fc_eps c; fc_oob := fc_oob c; fc_batch := fc_batch c; fc_alpha_N := fc_alpha_N c;
     fc_alpha_F := fc_alpha_F c |}.

(** A change of the labels of a forest with class dictionary d and label arrays h.  In
    classification: new names for the classes; the labels in h may be truncated to integers
    before or after the renaming.  In
    regression: y |-> k y + d; with boosting y |-> k y, and k = 1 if a label array is an
    integer array. *)
Definition frelabelling (c : fcfg) (d : cdict) (h : heap) (g : Qc -> Qc) (s : Qc) : Prop :=
  (if fc_class c
   then s = 1%Qc /\ (forall la y, In la h -> In y (la_vals la) -> trunc (g y) = g (trunc y)) /\
        forall x y, In x (map fst d) -> In y (map fst d) -> g x = g y -> x = y
   else exists k b, k <> 0%Qc /\ s = (k * k)%Qc /\ (forall y, g y = (k * y + b)%Qc) /\
        (fc_boosting c = true -> b = 0%Qc /\ (k = 1%Qc \/ forall la, In la h -> la_int la = false))).

(** Two forests with the same state up to the change of units: same stored table and ranges in
    the new units, renamed classes, trees of the same shape, impurity decreases times s. *)
Record same_forest (u : units) (g : Qc -> Qc) (s : Qc) (f f' : forest) : Prop := {
  fo_data : f_data f' = option_map (map (move_row u)) (f_data f);
  fo_org : f_org f' = f_org f; fo_new : f_new f' = f_new f;
  fo_trees : Forall2 (fun ct ct' => fst ct' = move_cfg u g s (fst ct) /\ same_tree u s (snd ct) (snd ct')) (f_trees f) (f_trees f');
  fo_classes : f_classes f' = map (fun p => (g (fst p), snd p)) (f_classes f);
  fo_ncl : f_ncl f' = f_ncl f; fo_dd : f_dd f' = f_dd f;
  fo_minmax : f_minmax f' = option_map (fun p => (move_row u (fst p), move_row u (snd p))) (f_minmax f);
  fo_budget : f_budget f' = f_budget f; fo_queries : f_queries f' = f_queries f;
  fo_oob : f_oob f' = f_oob f; fo_mdg : f_mdg f' = option_map (map (move_x s)) (f_mdg f); fo_gen : f_gen f' = f_gen f
}.

(** A forest's answer in the new units. *)
Definition move_fpred (g : Qc -> Qc) (p : fpred) : fpred :=
  match p with
  | FClass l ps => FClass (g l) ps | FReg v => FReg (g v)
  | FNanClass l => FNanClass (g l) | FNanReg => FNanReg
  end.
Definition move_fanswer (g : Qc -> Qc) (r : res fpred) : res fpred :=
  match r with Ok p => Ok (move_fpred g p) | Err e => Err e end.

(** The settings under which the search reads nothing but the table. *)
Definition forest_fixed_grid (c : fcfg) : Prop :=
  fc_solver c = EXACT /\
  (fc_bin c = IDENTITY \/ fc_bin c = LINEAR /\ (fc_log_split c = true \/ 2 <= fc_nb c)).

(** A class dictionary with renamed classes. *)
Definition rename (g : Qc -> Qc) (d : cdict) : cdict := map (fun p => (g (fst p), snd p)) d.

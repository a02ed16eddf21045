(** Vocabulary for adding columns to a forest's training table and for keeping only some of them. *)
From Coq Require Import List Arith Bool ZArith QArith Qcanon Lia Sorted.
From Verif Require Import Base Num Rng Histogram Utils Criteria Solvers Tree Forest Spec SolverSpec TreeSpec InvarSpec ForestSpec FInvarSpec ColSpec.
Import ListNotations.
Local Open Scope nat_scope.

(** The settings under which every tree looks at every column and reads nothing but the table: all
    rows and columns are handed to every tree (bootstrapping aside), no budget. *)
Definition forest_columns (c : fcfg) (f : forest) : Prop :=
  forest_fixed_grid c /\ fc_fsub c = FSNone /\ fc_precomp_minmax c = false /\ (1 <= fc_alpha_N c)%Qc /\ (1 <= fc_alpha_F c)%Qc /\
  f_minmax f = None /\ f_dd f = None /\ f_budget f = None.

(** Two forests of trees with the same splits up to the numbering of the columns.  The table, the
    number of queries and the importances may differ. *)
Record col_forest (phi : nat -> nat) (f f' : forest) : Prop := {
  cf_trees : Forall2 (fun ct ct' => fst ct' = fst ct /\ col_tree phi (snd ct) (snd ct')) (f_trees f) (f_trees f');
  cf_org : f_org f' = f_org f; cf_new : f_new f' = f_new f; cf_classes : f_classes f' = f_classes f; cf_ncl : f_ncl f' = f_ncl f;
  cf_dd : f_dd f' = f_dd f; cf_minmax : f_minmax f' = f_minmax f; cf_budget : f_budget f' = f_budget f; cf_oob : f_oob f' = f_oob f; cf_mdg : f_mdg f' = f_mdg f; cf_gen : f_gen f' = f_gen f
}.

(** The table with the column x added. *)
Definition widen (x : list Qc) (data : list (list Qc)) : list (list Qc) := map (fun p => fst p ++ [snd p]) (combine data x).
(** No two rows agree in all of the columns. *)
Definition apart (keep : list nat) (data : list (list Qc)) : Prop :=
  forall i j, i < length data -> j < length data -> i <> j -> exists k, In k keep /\ cell data i k <> cell data j k.
(** Every split found in the forest is on one of the columns. *)
Definition forest_uses (keep : list nat) (f : forest) : Prop := forall tc t, In (tc, t) (f_trees f) -> uses_only keep t.
(** A forest that differs in its stored table, its old trees and its query counter only. *)
Record same_start (f f' : forest) : Prop := {
  ss_org : f_org f' = f_org f; ss_new : f_new f' = f_new f; ss_classes : f_classes f' = f_classes f; ss_ncl : f_ncl f' = f_ncl f;
  ss_dd : f_dd f' = f_dd f; ss_minmax : f_minmax f' = f_minmax f; ss_budget : f_budget f' = f_budget f; ss_oob : f_oob f' = f_oob f; ss_mdg : f_mdg f' = f_mdg f; ss_gen : f_gen f' = f_gen f
}.
(** The same call of fit with the other table: both times as an argument, or both times the table
    stored in the forest. *)
Definition same_call (f f' : forest) (arg arg' : option (list (list Qc)) * option nat) (data' : list (list Qc)) : Prop :=
  same_start f f' /\ (arg = (None, None) /\ arg' = (None, None) /\ f_data f' = Some data' \/ exists d r, arg = (Some d, Some r) /\ arg' = (Some data', Some r)).

(** Trees and forests that read no seed. *)
From Coq Require Import List Arith Bool ZArith QArith Qcanon Lia.
From Verif Require Import Base Num Rng Histogram Utils Criteria Solvers Tree Forest Samples Spec SolverSpec TreeSpec GrowSpec ForestSpec TreeWitness TrainWitness OrderWitness ForestWitness BlindThms BlindWitness.
Import ListNotations.
Local Open Scope nat_scope.

(** ** C167: an exhaustive tree without feature subsampling and without random bins is the same
    for every seed, and a forest of them for every global random state *)
Theorem C167_tree_reads_nothing : forall P P' M c a W e e' s t, tc_solver c = EXACT /\ tc_bin c <> RANDOM /\ tc_fsub c = FSNone -> trainable c a W -> memory_free c a ->
  built P M c a e t -> built P' M c (with_seed a s (ta_dd a)) e' t.
Proof. exact tree_reads_nothing. Qed.
Print Assumptions C167_tree_reads_nothing.
Theorem C167_tree_reads_no_seed : forall P P' M c a e e' s t, tc_solver c = EXACT /\ tc_bin c <> RANDOM /\ tc_fsub c = FSNone -> coming e e' ->
  built P M c a e t -> built P' M c (with_seed a s (ta_dd a)) e' t.
Proof. exact tree_reads_no_seed. Qed.
Print Assumptions C167_tree_reads_no_seed.
(** Eight rows, three columns, three splits. *)
Example C167_tree_ex : reads_no_seed (grow_cfg false 3) /\ trainable (grow_cfg false 3) eight 3 /\ memory_free (grow_cfg false 3) eight /\ exists t, built P0 M0 (grow_cfg false 3) eight env0 t /\ t_splits t = 3.
Proof. exact blind_tree_run. Qed.

Theorem C167_forest_reads_nothing : forall M P P' c f arg h e e' f' h' e1 data W la, fc_solver c = EXACT /\ fc_bin c <> RANDOM /\ fc_fsub c = FSNone ->
  forest_trainable c f arg h data W -> (exists r, fit_ref f arg = Some r /\ nth_error h r = Some la) -> forest_bins c data (if fc_class c then map trunc (la_vals la) else la_vals la) W 2 ->
  forest_fit M P c f arg h e = Ok (f', h', e1) -> exists e1', forest_fit M P' c f arg h e' = Ok (f', h', e1').
Proof. exact fit_reads_nothing. Qed.
Print Assumptions C167_forest_reads_nothing.
Theorem C167_forest_reads_no_seed : forall M P P' c f arg h e e' f1 h1 e1, fc_solver c = EXACT /\ fc_bin c <> RANDOM /\ fc_fsub c = FSNone -> coming e e' ->
  forest_fit M P c f arg h e = Ok (f1, h1, e1) -> exists e1', forest_fit M P' c f arg h e' = Ok (f1, h1, e1') /\ coming e1 e1'.
Proof. exact fit_reads_no_seed. Qed.
Print Assumptions C167_forest_reads_no_seed.
(** Three bootstrapped trees. *)
Example C167_forest_ex : forest_reads_no_seed fc_re /\ forest_trainable fc_re (fst (start P1 fc_re T6)) (None, None) (heap_of T6) X6 2 /\ forest_bins fc_re X6 T6 2 2 /\
  e_np (snd (start P1 fc_re T6)) <> [8; 9] /\
  exists f h e, forest_fit M0 P1 fc_re (fst (start P1 fc_re T6)) (None, None) (heap_of T6) (snd (start P1 fc_re T6)) = Ok (f, h, e) /\ length (f_trees f) = 3 /\ exists x y v w g g', forest_predict fc_re f x = Ok (FReg v, g) /\ forest_predict fc_re f y = Ok (FReg w, g') /\ v <> w.
Proof. exact blind_forest_run. Qed.

(** None of the three conditions can be dropped. *)
Theorem C167_each_needed :
  (exists c, tc_solver c = EXACT /\ tc_bin c <> RANDOM /\ tc_fsub c = FSInt 1 /\ seed_matters c) /\
  (exists c, tc_solver c = EXACT /\ tc_bin c = RANDOM /\ tc_fsub c = FSNone /\ seed_matters c) /\
  (exists c, tc_solver c = MAB /\ tc_bin c = LINEAR /\ tc_fsub c = FSNone /\ seed_matters c).
Proof. exact each_needed. Qed.
Print Assumptions C167_each_needed.

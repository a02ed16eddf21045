(** A forest of bandit trees whose rows fit in one batch. *)
From Coq Require Import List Arith Bool ZArith QArith Qcanon Lia.
From Verif Require Import Base Num Rng Histogram Utils Criteria Solvers Tree Forest Spec SolverSpec TreeSpec TrainSpec ForestSpec NestSpec GrowSpec BudgetSpec BanditSpec Samples NumFacts ListFacts TreeTotal TreeMore TrustWitness TreeWitness InvarWitness ForestWitness TrainWitness NestWitness BudgetWitness BanditWitness.
Import ListNotations.
Local Open Scope nat_scope.

(** fc_band with batches of b rows and either search. *)
Definition fc_small (sv : solver) (b : nat) : fcfg :=
  {| fc_class := true; fc_n := 3; fc_max_depth := DFin 2; fc_bootstrap := true; fc_fsub := FSNone; fc_min_split := 1; fc_min_imp := 0%Qc;
     fc_max_leaves := None; fc_bin := LINEAR; fc_nb := 6; fc_crit := GINI; fc_splitter := BEST; fc_solver := sv; fc_seed := 3;
     fc_repl := false; fc_boosting := false; fc_lr := None; fc_make_discrete := false; fc_precomp_minmax := true; fc_log_split := false;
     fc_dyn_eps := false; fc_eps := 0%Qc; fc_oob := false; fc_batch := b; fc_alpha_N := 1%Qc; fc_alpha_F := 1%Qc |}.
Lemma small_forest_trainable sv b : forest_trainable (fc_small sv b) (fst (start P1 (fc_small sv b) Y6)) (None, None) (heap_of Y6) X6 2.
Proof.
  eapply tidy_trainable; [reflexivity|reflexivity|cbn; auto|discriminate|reflexivity|cbn; intros Q; discriminate Q|reflexivity|reflexivity|reflexivity|reflexivity|reflexivity|reflexivity|reflexivity|cbn; lia|lia|apply X6_rect|].
  intros _. split.
  - intros y I. cbn in I. repeat (destruct I as [<-|I]; [cbn; first [left; apply Qc_is_canon; reflexivity | right; left; apply Qc_is_canon; reflexivity]|]). destruct I.
  - intros k i [E|[E|[]]]; injection E as _ <-; cbn; lia.
Qed.

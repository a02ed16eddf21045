(** Specification vocabulary for the comparison with scikit-learn. *)
From Coq Require Import List Arith Bool ZArith QArith Qcanon.
From Verif Require Import Base Num Rng Histogram Utils Criteria Solvers Tree Forest Permutation Wrappers Compare Baseline Spec SolverSpec TreeSpec ForestSpec PermSpec WrapSpec CompareSpec StabSpec ReportSpec.
Import ListNotations.
Local Open Scope nat_scope.

(** The contests that reach a fitted model in this model of the code. *)
Inductive entered : contest -> wrapper -> Prop :=
| en_rfc : entered CtRFC RandomForestClassifier
| en_erfc : entered CtERFC ExtremelyRandomForestClassifier
| en_rfr : entered CtRFR RandomForestRegressor
| en_erfr : entered CtERFR ExtremelyRandomForestRegressor
| en_gbrfr : entered CtGBRFR GBRandomForestRegressor.

(** The settings that all contests share: five trees of depth at most five, the exhaustive
    search, no limit on the leaves, no budget, no minimum on the impurity decrease. *)
Record five_trees (cl : bool) (seed : nat) (c : fcfg) : Prop := {
  ft_class : fc_class c = cl; ft_n : fc_n c = 5; ft_depth : fc_max_depth c = DFin 5; ft_split : fc_min_split c = 2; ft_imp : fc_min_imp c = 0%Qc; ft_leaves : fc_max_leaves c = None;
  ft_crit : fc_crit c = if cl then GINI else MSE; ft_splitter : fc_splitter c = BEST; ft_solver : fc_solver c = EXACT; ft_seed : fc_seed c = seed; ft_repl : fc_repl c = false;
  ft_discrete : fc_make_discrete c = false; ft_oob : fc_oob c = false; ft_alphas : fc_alpha_N c = 1%Qc /\ fc_alpha_F c = 1%Qc }.
(** Bootstrap, feature subsampling, thresholds and learning rate of each contest. *)
Definition own_settings (ct : contest) (c : fcfg) : Prop :=
  match ct with
  | CtRFC => fc_bootstrap c = true /\ fc_fsub c = FSSqrt /\ fc_bin c = IDENTITY /\ fc_boosting c = false
  | CtERFC => fc_bootstrap c = false /\ fc_fsub c = FSSqrt /\ fc_bin c = RANDOM /\ fc_nb c = 1 /\ fc_boosting c = false
  | CtRFR => fc_bootstrap c = true /\ fc_fsub c = FSNone /\ fc_bin c = IDENTITY /\ fc_boosting c = false
  | CtERFR => fc_bootstrap c = false /\ fc_fsub c = FSNone /\ fc_bin c = RANDOM /\ fc_nb c = 1 /\ fc_boosting c = false
  | CtGBRFR => fc_bootstrap c = false /\ fc_fsub c = FSSqrt /\ fc_bin c = IDENTITY /\ fc_boosting c = true /\ fc_lr c = Some (Q2Qc (1 # 10))
  | _ => False
  end.

(** A classifier's or a regressor's answers as bare numbers. *)
Definition said (cl : bool) (vs : list Qc) : list fpred := map (fun v => if cl then FClass v [] else FReg v) vs.

(** The standard deviation over the seeds. *)
Definition deviation (M : math) (l : list Qc) : Qc := m_sqrt M (variance l).
Definition spans (M : math) (s : stat) (l : list Qc) : Prop := s = {| st_avg := Fin (mean l); st_std := Fin (deviation M l) |}.

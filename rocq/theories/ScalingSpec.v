(** Specification of what the scaling experiment records. *)
From Coq Require Import List Arith Bool ZArith QArith Qcanon.
From Verif Require Import Base Num Rng Histogram Utils Criteria Solvers Tree Forest Wrappers Compare Scaling Spec SolverSpec TreeSpec ForestSpec.
Import ListNotations.
Local Open Scope nat_scope.

(** One fit of the experiment: [size] rows drawn with repetition, each from one number of the
    generator seeded s; a wrapper built on them with the bandit search and random_state=0,
    fitted; q insertions. *)
Definition one_fit (M : math) (P : prng) (cl : bool) (X : list (list Qc)) (Y : list Qc) (size s : nat) (e : env) (c : fcfg) (q : nat) : Prop :=
  exists idcs o h e1 f h' e2, idcs = map (fun j => nth j (seed_gen P s) 0 mod length X) (seq 0 size) /\ (forall i, In i idcs -> i < length X) /\
    construct P (if cl then HistogramRandomForestClassifier else HistogramRandomForestRegressor)
      ([(Kdata, VTable (map (fun i => nth i X []) idcs)); (Klabels, VArr 0); (Ksolver, VSolver MAB); (Krandom_state, VInt 0)] ++ sweep_opts cl)
      [{| la_int := cl; la_vals := map (fun i => nth i Y 0%Qc) idcs |}] e = Ok (o, h, e1) /\
    c = wo_cfg o /\ forest_fit M P c (wo_forest o) (None, None) h e1 = Ok (f, h', e2) /\ q = f_queries f.

(** The settings of those fits. *)
Record sweep_settings (cl : bool) (c : fcfg) : Prop := {
  ss_class : fc_class c = cl; ss_n : fc_n c = 5; ss_depth : fc_max_depth c = DFin 5; ss_leaves : fc_max_leaves c = None;
  ss_sub : fc_fsub c = if cl then FSSqrt else FSNone; ss_boot : fc_bootstrap c = true; ss_bin : fc_bin c = LINEAR; ss_nb : fc_nb c = 11;
  ss_solver : fc_solver c = MAB; ss_batch : fc_batch c = 1000; ss_repl : fc_repl c = false; ss_seed : fc_seed c = 0;
  ss_boosting : fc_boosting c = false; ss_ranges : fc_precomp_minmax c = true }.

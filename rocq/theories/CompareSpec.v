(** Specification vocabulary for the comparisons of two models. *)
From Coq Require Import List Arith Bool ZArith QArith Qcanon.
From Verif Require Import Base Num Rng Histogram Utils Criteria Solvers Tree Forest Wrappers Compare Spec SolverSpec TreeSpec ForestSpec WrapSpec.
Import ListNotations.
Local Open Scope nat_scope.

(** A model built and fitted with nothing happening in between: its settings c, the forest f,
    and the arrays and the environment afterwards. *)
Definition fitted_alone (M : math) (P : prng) (tk : task) (sv : solver) (seed : nat) (h : heap) (e : env) (c : fcfg) (f : forest) (h1 : heap) (e1 : env) : Prop :=
  exists o h0 e0, construct P (tk_w tk) (call_args tk sv seed) h e = Ok (o, h0, e0) /\ c = wo_cfg o /\
    forest_fit M P c (wo_forest o) (None, None) h0 e0 = Ok (f, h1, e1).

(** Wrappers that overwrite the labels they are given. *)
Definition boosts (w : wrapper) : Prop := In (Kboosting, VBool true) (actual w).
(** Wrappers that read no seed but the forest's own when run with the exhaustive search. *)
Definition seedless (w : wrapper) : Prop := w = RandomForestRegressor \/ w = HistogramRandomForestRegressor \/ w = HistogramRandomPatchesRegressor.

(** The fitted model of an entry predicts v at x. *)
Definition foresees (a : entry) (x : list Qc) (v : Qc) : Prop := exists g, forest_predict (en_cfg a) (en_forest a) x = Ok (FReg v, g).

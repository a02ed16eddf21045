(** A regression tree that is asked for Gini impurity or entropy. *)
From Coq Require Import List Arith Bool ZArith QArith Qcanon.
From Verif Require Import Base Num Rng Histogram Utils Criteria Solvers Spec SolverSpec Samples PileFacts PileWitness.
Import ListNotations.
Local Open Scope nat_scope.

(** ** C163: what Gini and entropy mean for real targets *)
(** The exact search minimises the change of [lump], the Gini formula on number, mean and variance. *)
Theorem C163_gini_regression : forall c data labels W M mir e0 out e1, solvable c data labels W -> s_class c = false ->
  solve_exactly M (with_measure c GINI) data labels mir e0 = Ok (out, e1) ->
  exists E, (forall f, f < W -> candidates (s_bin c) (nbins c data) (s_minmax c) data f (E f)) /\
    right_answer (reduction lump (combine data labels)) mir W E out.
Proof. exact gini_regression. Qed.
Print Assumptions C163_gini_regression.

(** Entropy never gives an answer. *)
Theorem C163_entropy_regression : forall c data labels W M mir e0, solvable c data labels W -> s_class c = false ->
  forall r, solve_exactly M (with_measure c ENTROPY) data labels mir e0 <> Ok r.
Proof. exact entropy_regression. Qed.
Print Assumptions C163_entropy_regression.

(** With Gini, adding a constant to the targets can move the split away from the one of least squared error. *)
Theorem C163_gini_shift_refuted : exists c data labels W d r q e1 r' q' e1' r2 q2 e2 r3 q3 e3 v v', solvable c data labels W /\ s_class c = false /\ v <> v' /\
  solve_exactly M0 (with_measure c GINI) data labels 0%Qc env0 = Ok (Found 0 v r q, e1) /\
  solve_exactly M0 (with_measure c GINI) data (map (fun y => (y + d)%Qc) labels) 0%Qc env0 = Ok (Found 0 v' r' q', e1') /\
  solve_exactly M0 c data labels 0%Qc env0 = Ok (Found 0 v r2 q2, e2) /\
  solve_exactly M0 c data (map (fun y => (y + d)%Qc) labels) 0%Qc env0 = Ok (Found 0 v r3 q3, e3).
Proof. exact gini_shift. Qed.
Print Assumptions C163_gini_shift_refuted.
Example C163_ex : solvable sc_reg X6 T6 2 /\ splits_at GINI T6 (z 3) = true /\ is_err (solve_exactly M0 (with_measure sc_reg ENTROPY) X6 T6 0%Qc env0) ValueError = true.
Proof. split; [apply reg_solvable; reflexivity|]. split; vm_compute; reflexivity. Qed.

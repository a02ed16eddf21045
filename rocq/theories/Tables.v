(** Model of experiments/produce_tables.py (the figures of tables 1 to 6, from the results of
    the experiments rather than from their log files, without the times) and of the two figures
    of merit of experiments/scaling_exps/make_scaling_plot.py. *)
From Coq Require Import List Arith Bool ZArith QArith Qcanon.
From Verif Require Import Base Num Compare Baseline.
Import ListNotations.
Local Open Scope nat_scope.

(** round: nearest whole number, ties to even; s(value), produce_tables.py:8-12, rounds to three
    digits.  The value is taken as an exact number. *)
Definition zround (q : Qc) : Z :=
  let f := qfloor q in
  let r := (q - Zq f)%Qc in
  if qlt r (Q2Qc (1 # 2)) then f else if qlt (Q2Qc (1 # 2)) r then (f + 1)%Z else if Z.even f then f else (f + 1)%Z.
Definition round3 (q : Qc) : Qc := (Zq (zround (q * Nq 1000)) / Nq 1000)%Qc.
Definition xround (a : xn) : xn := match a with Fin q => Fin (round3 q) | _ => a end.

(** A cell "average +- spread" and a row: whether it is one of ours, and its cells. *)
Definition cell := (xn * xn)%type.
Definition cell_of (st : stat) : cell := (xround (st_avg st), xround (st_std st)).
Definition row := (bool * list cell)%type.

(** write_runtime_data, produce_tables.py:37-66: rounding the None of a run without predictions
    raises. *)
Definition runtime_rows (ours theirs : side) : res (list row) :=
  do o <- opt_res (sd_test ours) TypeError;
  do t <- opt_res (sd_test theirs) TypeError;
  Ok [(false, [cell_of (sd_queries theirs); cell_of t]); (true, [cell_of (sd_queries ours); cell_of o])].
(** write_budget_data, produce_tables.py:69-92. *)
Definition budget_rows (ours theirs : side) : res (list row) :=
  do o <- opt_res (sd_test ours) TypeError;
  do t <- opt_res (sd_test theirs) TypeError;
  Ok [(false, [cell_of (sd_trees theirs); cell_of t]); (true, [cell_of (sd_trees ours); cell_of o])].
(** produce_table5, produce_tables.py:173-198, from the two intervals of the stability test. *)
Definition midway (lb ub : xn) : xn := xdiv (xadd lb ub) (Fin (Nq 2)).
Definition half_width (lb ub : xn) : xn := xdiv (xabs (xsub lb ub)) (Fin (Nq 2)).
Definition stability_rows (exact mab : xn * xn) : list row :=
  [ (false, [(xround (midway (fst exact) (snd exact)), xround (half_width (fst exact) (snd exact)))]);
    (true, [(xround (midway (fst mab) (snd mab)), xround (half_width (fst mab) (snd mab)))]) ].
(** produce_table6, produce_tables.py:204-239: the column is headed Test Performance. *)
Definition accuracy_rows (oc : outcome) : list row :=
  [ (false, [cell_of (oc_their_train oc)]); (true, [cell_of (oc_train oc)]) ].

(** hashes_R2 and hashes_log_R2, make_scaling_plot.py:14, 26-35: [pred] is what the fitted line
    predicts at the sizes. *)
Definition squares (a b : list Qc) : Qc := qsum (map (fun p => ((fst p - snd p) * (fst p - snd p))%Qc) (combine a b)).
Definition r_squared (pred counts : list Qc) : xn :=
  let mean := xdiv (Fin (qsum counts)) (Fin (Nq (length counts))) in
  match mean with
  | Fin m => xsub (Fin 1%Qc) (xdiv (Fin (squares pred counts)) (Fin (squares (map (fun _ => m) counts) counts)))
  | _ => NaN
  end.

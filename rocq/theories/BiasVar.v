(** Model of the computation of bias_variance_analysis,
    experiments/bias_variance/bias_variance_analysis.py:36-84.  The predictions of the trained
    models (the fit / predict_batch / reset loop, lines 63-75), the predictions of the true model
    (line 76) and the test labels are inputs: one row of predictions per trial. *)
From Coq Require Import List Arith Bool ZArith QArith Qcanon Lia.
From Verif Require Import Base Num Utils Histogram.
Import ListNotations.
Local Open Scope nat_scope.

Definition sq (x : Qc) : Qc := (x * x)%Qc.
Record decomposition := { bv_noise : list Qc; bv_bias : list Qc; bv_variance : list Qc; bv_error : list Qc }.

(** bias_variance_analysis.py:60-84.  The prediction array is np.empty((num_trials, num_data)), so
    every row assigned to it has num_data entries (ValueError otherwise), and so have the true
    model's predictions and the labels; num_trials is a positive constant (10), zero trials are not
    modelled. *)
Definition bias_variance (preds : list (list Qc)) (bayes Y : list Qc) : res decomposition :=
  let n := length Y in
  do _ <- guard (negb (length preds =? 0)) Unmodelled;
  do _ <- guard (forallb (fun r => length r =? n) preds) ValueError;
  do _ <- guard (length bayes =? n) ValueError;
  do cols <- mapM (col preds) (seq 0 n);
  let mean_pred := map qmean cols in
  Ok {| bv_noise := map (fun p => sq (fst p - snd p)) (combine bayes Y);
        bv_bias := map (fun p => sq (fst p - snd p)) (combine bayes mean_pred);
        bv_variance := map (fun p => qmean (map (fun x => sq (snd p - x)) (fst p))) (combine cols mean_pred);
        bv_error := map (fun p => qmean (map (fun x => sq (x - snd p)) (fst p))) (combine cols Y) |}.

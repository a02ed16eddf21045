(** The bias-variance report of the experiments. *)
From Coq Require Import List Arith Bool ZArith QArith Qcanon Lia.
From Verif Require Import Base Num Utils Samples Spec BiasVar BiasVarFacts.
Import ListNotations.
Local Open Scope nat_scope.

(** ** C151: noise, squared bias, variance and error *)
Theorem C151_reported : forall preds bayes Y d, bias_variance preds bayes Y = Ok d ->
  length (bv_noise d) = length Y /\ length (bv_bias d) = length Y /\ length (bv_variance d) = length Y /\ length (bv_error d) = length Y /\ preds <> [] /\
  forall j, j < length Y -> let p := at_point preds j in
    nth j (bv_noise d) 0%Qc = sq (nth j bayes 0%Qc - nth j Y 0%Qc) /\
    nth j (bv_bias d) 0%Qc = sq (nth j bayes 0%Qc - mean p) /\
    nth j (bv_variance d) 0%Qc = variance p /\
    nth j (bv_error d) 0%Qc = mean (map (fun x => sq (x - nth j Y 0%Qc)) p).
Proof. exact reported. Qed.
Print Assumptions C151_reported.
(** The error of a test point is the variance plus the squared distance of the mean prediction
    from the label; it exceeds noise + bias^2 + variance by a cross term ... *)
Theorem C151_cross_term : forall preds bayes Y d j, bias_variance preds bayes Y = Ok d -> j < length Y ->
  nth j (bv_error d) 0%Qc = (nth j (bv_variance d) 0%Qc + sq (mean (at_point preds j) - nth j Y 0%Qc))%Qc /\
  (nth j (bv_error d) 0%Qc - (nth j (bv_noise d) 0%Qc + nth j (bv_bias d) 0%Qc + nth j (bv_variance d) 0%Qc))%Qc =
  (z 2 * (mean (at_point preds j) - nth j bayes 0%Qc) * (nth j bayes 0%Qc - nth j Y 0%Qc))%Qc.
Proof. exact decomposes. Qed.
Print Assumptions C151_cross_term.
(** ... so the three add up to the error of a test point exactly when the label has no noise or the
    mean prediction no bias. *)
Theorem C151_adds_up_iff : forall preds bayes Y d j, bias_variance preds bayes Y = Ok d -> j < length Y ->
  (nth j (bv_error d) 0%Qc = (nth j (bv_noise d) 0%Qc + nth j (bv_bias d) 0%Qc + nth j (bv_variance d) 0%Qc)%Qc <->
   nth j bayes 0%Qc = nth j Y 0%Qc \/ nth j bayes 0%Qc = mean (at_point preds j)).
Proof. exact decomposes_iff. Qed.
Print Assumptions C151_adds_up_iff.
(** The averages plotted by the script differ by the average cross term. *)
Theorem C151_averages : forall preds bayes Y d, bias_variance preds bayes Y = Ok d ->
  (mean (bv_error d) - (mean (bv_noise d) + mean (bv_bias d) + mean (bv_variance d)))%Qc =
  mean (map (fun j => (z 2 * (mean (at_point preds j) - nth j bayes 0%Qc) * (nth j bayes 0%Qc - nth j Y 0%Qc))%Qc) (seq 0 (length Y))).
Proof. exact averages. Qed.
Print Assumptions C151_averages.
Theorem C151_sum_refuted : exists preds bayes Y d, bias_variance preds bayes Y = Ok d /\
  mean (bv_error d) <> (mean (bv_noise d) + mean (bv_bias d) + mean (bv_variance d))%Qc.
Proof. exact not_a_decomposition. Qed.
Print Assumptions C151_sum_refuted.
(** Three trials, two test points. *)
Example C151_ex : exists d, bias_variance [[z 1; z 4]; [z 2; z 0]; [z 6; z 5]] [z 2; z 3] [z 1; z 3] = Ok d /\
  bv_variance d = [frac 14 3; frac 14 3] /\ bv_error d = [frac 26 3; frac 14 3].
Proof. eexists. split; [reflexivity|]. cbn [bv_variance bv_error]. assert (G : forall a b c d : Qc, a = c -> b = d -> [a; b] = [c; d]) by congruence. split; apply G; apply Qc_is_canon; vm_compute; reflexivity. Qed.

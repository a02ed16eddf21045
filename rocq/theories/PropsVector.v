(** Property theorems C134, C135: the vectorised branches (VECTORIZE = True) against the
    loops that run by default. *)
From Coq Require Import List Arith Bool ZArith QArith Qcanon Lia.
From Verif Require Import Base Num Rng Histogram Criteria Vector Spec NumFacts HistFacts HistAdd HistProps Samples VectorFacts VectorRed VectorHist.
Import ListNotations.
Local Open Scope nat_scope.

(** ** C134.  Whole-number classes: whatever the loop counts, the vectorised add counts. *)
Theorem C134_same_histogram_partial : forall f uf fd cl nb mn mx ty t h0 t' batches h,
  new_hist true f uf fd cl nb mn mx ty t = Ok (h0, t') -> NoDup cl -> (forall c, In c cl -> exists n, c = rat n) ->
  add_all h0 batches = Ok h -> vec_add_all h0 batches = Ok h.
Proof. exact vec_add_all_same. Qed.
Print Assumptions C134_same_histogram_partial.

Example C134_case : exists h0 t' h,
  new_hist true 0 None [] [z 1; z 0] 3 (z 1) (z 6) LINEAR [] = Ok (h0, t') /\ z 1 = rat 1 /\ z 0 = rat 0 /\
  add_all h0 [(X6, Y6); (X6, Y6)] = Ok h /\ h_left h = [[0; 2]; [0; 6]; [6; 6]].
Proof.
  do 3 eexists. split; [reflexivity|]. split; [apply Qc_is_canon; vm_compute; reflexivity|]. split; [apply Qc_is_canon; vm_compute; reflexivity|].
  split; vm_compute; reflexivity.
Qed.

(** Classes -1 and 1: both labels fall on the same slot of the lookup table. *)
Theorem C134_negative_class_refuted : exists h0 t' X Y hs hv,
  new_hist true 0 None [] [z (-1); z 1] 2 (z 0) (z 1) LINEAR [] = Ok (h0, t') /\ NoDup [z (-1); z 1] /\ incl Y [z (-1); z 1] /\
  hist_add h0 X Y = Ok hs /\ vec_add h0 X Y = Ok hv /\ h_left hs = [[1; 0]; [2; 1]] /\ h_left hv = [[0; 1]; [0; 3]].
Proof. exact negative_classes. Qed.
Print Assumptions C134_negative_class_refuted.

(** A label that is no class: the loop raises, the vectorised add counts it as the first
    class. *)
Theorem C134_unknown_label_refuted : exists h0 t' hv,
  new_hist true 0 None [] [z 0; z 2] 2 (z 0) (z 1) LINEAR [] = Ok (h0, t') /\ ~ In (z 1) [z 0; z 2] /\
  hist_add h0 [[z 0]; [z 1]] [z 1; z 2] = Err ValueError /\ vec_add h0 [[z 0]; [z 1]] [z 1; z 2] = Ok hv /\ h_left hv = [[1; 0]; [1; 1]].
Proof. exact unknown_class. Qed.
Print Assumptions C134_unknown_label_refuted.

(** ** C135 *)
Theorem C135_gini_partial : forall f uf fd cl nb mn mx ty t h0 t' edges batches h M m bins pop irs vs,
  new_hist true f uf fd cl nb mn mx ty t = Ok (h0, t') -> good_bins ty nb mn mx uf -> NoDup cl ->
  h_edges h0 = Some edges -> add_all h0 batches = Ok h -> rows_of batches <> [] ->
  bins <> [] -> length bins <= length edges -> (forall b, In b bins -> b < length edges) -> m = GINI \/ m = MAuto ->
  (get_impurity_reductions M m h bins pop = Ok (irs, vs) <-> vec_reductions M m h bins pop = Ok (map Fin irs, vs)).
Proof. exact vec_gini_history. Qed.
Print Assumptions C135_gini_partial.

Theorem C135_mse_partial : forall f uf fd cl nb mn mx ty t h0 t' edges batches h M m bins pop irs vs,
  new_hist false f uf fd cl nb mn mx ty t = Ok (h0, t') -> good_bins ty nb mn mx uf ->
  h_edges h0 = Some edges -> add_all h0 batches = Ok h -> rows_of batches <> [] ->
  bins <> [] -> length bins <= length edges -> (forall b, In b bins -> b < length edges) -> m = MSE \/ m = MAuto ->
  (get_impurity_reductions M m h bins pop = Ok (irs, vs) <-> vec_reductions M m h bins pop = Ok (map Fin irs, vs)).
Proof. exact vec_regr_history. Qed.
Print Assumptions C135_mse_partial.

(** Entropy: the changes agree; of the variances only the last is certain to. *)
Theorem C135_entropy_change_partial : forall f uf fd cl nb mn mx ty t h0 t' edges batches h M bins pop irs vs,
  new_hist true f uf fd cl nb mn mx ty t = Ok (h0, t') -> good_bins ty nb mn mx uf -> NoDup cl ->
  h_edges h0 = Some edges -> add_all h0 batches = Ok h -> rows_of batches <> [] ->
  bins <> [] -> (forall b, In b bins -> b < length edges) ->
  get_impurity_reductions M ENTROPY h bins pop = Ok (irs, vs) ->
  exists vs', vec_reductions M ENTROPY h bins pop = Ok (map Fin irs, vs') /\ length vs' = length vs /\ forall d, last vs' d = last vs d.
Proof. exact vec_entropy_history. Qed.
Print Assumptions C135_entropy_change_partial.

Example C135_case : exists h0 t' h irs vs,
  new_hist true 0 None [] [z 0; z 1] 3 (z 1) (z 6) LINEAR [] = Ok (h0, t') /\ good_bins LINEAR 3 (z 1) (z 6) None /\
  add_all h0 [(X6, Y6)] = Ok h /\ get_impurity_reductions M0 GINI h [0; 1; 2] (Some 12) = Ok (irs, vs) /\
  map this irs = map this [frac (-1) 10; frac (-1) 2; z 0] /\ vec_reductions M0 GINI h [0; 1; 2] (Some 12) = Ok (map Fin irs, vs).
Proof.
  do 5 eexists. split; [reflexivity|]. split; [split; [discriminate|lia]|]. split; [vm_compute; reflexivity|]. split; [vm_compute; reflexivity|].
  split; vm_compute; reflexivity.
Qed.
Example C135_mse_case : exists h0 t' h irs vs,
  new_hist false 0 None [] [] 3 (z 1) (z 6) LINEAR [] = Ok (h0, t') /\
  add_all h0 [(X6, T6)] = Ok h /\ get_impurity_reductions M0 MSE h [0; 1; 2] (Some 12) = Ok (irs, vs) /\
  map this irs = map this [frac (-187) 90; frac (-809) 120; z 0].
Proof. do 5 eexists. split; [reflexivity|]. split; [vm_compute; reflexivity|]. split; [vm_compute; reflexivity|]. vm_compute; reflexivity. Qed.

(** Three rows, two edges, logarithms to six digits: the variance of the first edge is larger
    in the vectorised program. *)
Theorem C135_entropy_variance_refuted : exists h0 t' h irs v0 v1 w0,
  new_hist true 0 None [] [z 0; z 1] 3 (z 1) (z 3) LINEAR [] = Ok (h0, t') /\
  add_all h0 [([[z 1]; [z 2]; [z 3]], [z 0; z 1; z 0])] = Ok h /\
  get_impurity_reductions Mlog ENTROPY h [0; 1] None = Ok (irs, [Fin v0; v1]) /\
  vec_reductions Mlog ENTROPY h [0; 1] None = Ok (map Fin irs, [Fin w0; v1]) /\ (v0 < w0)%Qc.
Proof. exact entropy_variances_differ. Qed.
Print Assumptions C135_entropy_variance_refuted.

(** Properties of the exact split search (C08-C12, C66, C69, C70).  The specification
    vocabulary ([candidates], [right_answer], [solvable], [impurity]) is in SolverSpec.v and
    [reduction] is in Spec.v. *)
From Coq Require Import List Arith Bool ZArith QArith Qcanon Lia Permutation Sorted.
From Verif Require Import Base Num Rng Histogram Utils Criteria Solvers Samples Spec SolverSpec ExactProps.
Import ListNotations.
Local Open Scope nat_scope.

Definition cfg_lin : scfg := {| s_class := true; s_measure := GINI; s_bin := LINEAR; s_nb := 4; s_minmax := None; s_dd := None |}.
Definition cfg_id : scfg := {| s_class := true; s_measure := GINI; s_bin := IDENTITY; s_nb := 4; s_minmax := None; s_dd := None |}.
Definition cfg_mse : scfg := {| s_class := false; s_measure := MSE; s_bin := IDENTITY; s_nb := 4; s_minmax := None; s_dd := None |}.

(** The inputs of the examples satisfy the hypothesis [solvable] and are answered. *)
Example solvable_cases : solvable cfg_lin X6 Y6 2 /\ solvable cfg_id X6 Y6 2 /\ solvable cfg_mse X6 T6 2.
Proof.
  repeat split; cbn; auto; try discriminate; try (intros r I; repeat (destruct I as [<-|I]; [reflexivity|]); destruct I).
Qed.
Example answered_cases :
  check (solve_exactly M0 cfg_lin X6 Y6 0 env0) (fun oe => match fst oe with Found f v r q =>
     (f =? 0) && qeq v (frac 8 3) && (q =? 12) | _ => false end) = true /\
  check (solve_exactly M0 cfg_id X6 Y6 0 env0) (fun oe => match fst oe with Found f v (Fin r) q =>
     (f =? 0) && qeq v (z 3) && qeq r (frac (-1) 2) && (q =? 12) | _ => false end) = true /\
  check (solve_exactly M0 cfg_mse X6 T6 0 env0) (fun oe => match fst oe with Found f v _ q =>
     (f =? 0) && qeq v (z 3) && (q =? 12) | _ => false end) = true.
Proof. repeat split; vm_compute; reflexivity. Qed.

(** ** C08 and C09. The answer is the true impurity change of the returned split, no
    candidate is better, ties are resolved to the first candidate, and "no split" means that
    no candidate goes below the threshold. *)
Theorem C08_exact_reports_true_change : forall c data labels W M mir e0 f v r q e1,
  solvable c data labels W ->
  solve_exactly M c data labels mir e0 = Ok (Found f v r q, e1) ->
  r = Fin (reduction (impurity M c) (combine data labels) f v).
Proof. exact exact_reported. Qed.
Print Assumptions C08_exact_reports_true_change.

Theorem C09_exact_is_optimal : forall c data labels W, solvable c data labels W ->
  forall M mir e0 out e1,
  solve_exactly M c data labels mir e0 = Ok (out, e1) ->
  exists E, (forall f, f < W -> candidates (s_bin c) (nbins c data) (s_minmax c) data f (E f)) /\
    right_answer (reduction (impurity M c) (combine data labels)) mir W E out.
Proof. exact exact_optimal. Qed.
Print Assumptions C09_exact_is_optimal.

(** With IDENTITY bins: no threshold whatsoever, on any feature, is better. *)
Theorem C09_identity_beats_every_threshold : forall M c data labels W mir e0 out e1,
  solvable c data labels W -> s_bin c = IDENTITY -> 0 < W ->
  solve_exactly M c data labels mir e0 = Ok (out, e1) ->
  let red := reduction (impurity M c) (combine data labels) in
  match out with
  | Found f v r q => f < W /\ In v (feature_values data f) /\ r = Fin (red f v) /\ (red f v < mir)%Qc /\
      (forall f' w, f' < W -> (red f v <= red f' w)%Qc) /\ q = length data * W
  | NoSplit q => (forall f' w, f' < W -> (mir <= red f' w)%Qc) /\ q = length data * W
  end.
Proof. exact exact_identity_best. Qed.
Print Assumptions C09_identity_beats_every_threshold.

(** ** C10. Queries. *)
Theorem C10_exact_queries : forall c data labels W, solvable c data labels W ->
  forall M mir e0 out e1,
  solve_exactly M c data labels mir e0 = Ok (out, e1) ->
  exists E, (forall f, f < W -> candidates (s_bin c) (nbins c data) (s_minmax c) data f (E f)) /\
    sres_q out = length data * length (busy_features W E).
Proof. exact exact_queries. Qed.
Print Assumptions C10_exact_queries.

(** With LINEAR bins: rows times the number of non-constant features. *)
Theorem C10_linear_queries : forall M c data labels W mir e0 out e1,
  solvable c data labels W -> s_bin c = LINEAR -> s_minmax c = None ->
  solve_exactly M c data labels mir e0 = Ok (out, e1) ->
  exists fs, NoDup fs /\
    (forall f, In f fs <-> f < W /\ exists x y, In x (feature_values data f) /\ In y (feature_values data f) /\ x <> y) /\
    sres_q out = length data * length fs.
Proof. exact exact_linear_queries. Qed.
Print Assumptions C10_linear_queries.

(** ** C11. Row order, and whatever the random state and memory contents are. *)
Theorem C11_row_order_irrelevant : forall M c data labels data' labels' mir e e' W out,
  solvable c data labels W -> s_bin c = LINEAR \/ s_bin c = IDENTITY ->
  length labels' = length data' -> Permutation (combine data labels) (combine data' labels') ->
  ((exists e1, solve_exactly M c data labels mir e = Ok (out, e1)) <->
   (exists e1, solve_exactly M c data' labels' mir e' = Ok (out, e1))).
Proof. exact exact_permutation. Qed.
Print Assumptions C11_row_order_irrelevant.

Example C11_case : Permutation (combine X6 Y6) (combine (rev X6) (rev Y6)) /\ length (rev Y6) = length (rev X6).
Proof. split; [|reflexivity]. apply Permutation_rev. Qed.

(** ** C12 for EXACT. *)
Theorem C12_exact_split_usable : forall c data labels W M mir e0 f v r q e1,
  solvable c data labels W ->
  solve_exactly M c data labels mir e0 = Ok (Found f v r q, e1) ->
  f < W /\ (exists E, candidates (s_bin c) (nbins c data) (s_minmax c) data f E /\ In v E) /\
  (exists x, r = Fin x /\ (x < mir)%Qc).
Proof. exact exact_usable. Qed.
Print Assumptions C12_exact_split_usable.

(** ** C66. Affine changes of the features, one factor and offset per feature. *)
Theorem C66_exact_affine : forall M c data labels mir e e' W a d out e1,
  solvable c data labels W -> s_bin c = LINEAR \/ s_bin c = IDENTITY -> s_minmax c = None ->
  (forall f, f < W -> (0 < a f)%Qc) ->
  solve_exactly M c data labels mir e = Ok (out, e1) ->
  exists e1', solve_exactly M c (map (rescale a d) data) labels mir e' = Ok (move_split a d out, e1').
Proof. exact exact_affine. Qed.
Print Assumptions C66_exact_affine.

Example C66_case : rescale (fun f => if f =? 0 then z 2 else z 1) (fun _ => z 5) [z 3; z 4] = [z 11; z 9] /\
  move_split (fun f => if f =? 0 then z 2 else z 1) (fun _ => z 5) (Found 0 (z 3) (Fin (z (-1))) 7) = Found 0 (z 11) (Fin (z (-1))) 7.
Proof. split; vm_compute; repeat f_equal; apply Qc_is_canon; reflexivity. Qed.

(** ** C69. EXACT answers exactly when some feature has a candidate threshold; otherwise
    (LINEAR bins and only constant features) it raises. *)
Theorem C69_exact_answers_iff : forall M c data labels W mir e0 E,
  solvable c data labels W -> s_bin c = LINEAR \/ s_bin c = IDENTITY ->
  (forall f, f < W -> candidates (s_bin c) (nbins c data) (s_minmax c) data f (E f)) ->
  ((exists out e1, solve_exactly M c data labels mir e0 = Ok (out, e1)) <-> (exists f, f < W /\ E f <> [])).
Proof. exact exact_answers_iff. Qed.
Print Assumptions C69_exact_answers_iff.

Example C69_constant_features : is_err (solve_exactly M0 cfg_lin [[z 3; z 4]; [z 3; z 4]] [z 0; z 1] 0 env0) IndexError = true.
Proof. vm_compute. reflexivity. Qed.

(** ** C70. EXACT never depends on uninitialised memory nor on any random state. *)
Theorem C70_exact_deterministic : forall M c data labels W mir e0 e0' out e1,
  solvable c data labels W -> s_bin c = LINEAR \/ s_bin c = IDENTITY ->
  solve_exactly M c data labels mir e0 = Ok (out, e1) ->
  exists e1', solve_exactly M c data labels mir e0' = Ok (out, e1').
Proof. exact exact_same_memory. Qed.
Print Assumptions C70_exact_deterministic.

(** Sampling variances reported with the impurities (C114-C117).  The vocabulary is in VarSpec.v. *)
From Coq Require Import List Arith Bool ZArith QArith Qcanon Lia Permutation.
From Verif Require Import Base Num Rng Histogram Criteria Samples Spec VarSpec NumFacts HistFacts HistAdd CritFacts HistProps HistProps2 VarFacts.
Import ListNotations.
Local Open Scope nat_scope.

(** ** C114: Gini *)
Theorem C114_gini_variance_two_classes_partial : forall c0 c1 ls pop, c0 <> c1 -> incl ls [c0; c1] -> ls <> [] -> fit_pop pop (length ls) ->
  exists g, get_gini [occurrences c0 ls; occurrences c1 ls] pop (Some (length ls)) = Ok (g, Fin (gini_variance ls pop)).
Proof. exact gini_var_two. Qed.
Print Assumptions C114_gini_variance_two_classes_partial.
Theorem C114_any_classes_partial : forall cl ls pop g v, cl <> [] -> ls <> [] -> fit_pop pop (length ls) ->
  get_gini (map (fun c => occurrences c ls) cl) pop (Some (length ls)) = Ok (g, v) -> v = Fin (separate_variance cl ls pop).
Proof. exact gini_var_separate. Qed.
Print Assumptions C114_any_classes_partial.
Theorem C114_never_negative_partial : forall cl ls pop, ls <> [] -> match pop with None => True | Some N => 2 <= N /\ length ls <= N end -> (0 <= separate_variance cl ls pop)%Qc.
Proof. exact separate_nonneg. Qed.
Print Assumptions C114_never_negative_partial.
Theorem C114_pure_sample_partial : forall cl ls pop c, ls <> [] -> (forall y, In y ls -> y = c) -> separate_variance cl ls pop = 0%Qc.
Proof. exact separate_pure. Qed.
Print Assumptions C114_pure_sample_partial.
Theorem C114_three_classes_refuted : exists ls cl cl' g v g' v', Permutation cl cl' /\ NoDup cl /\ incl ls cl /\ ls <> [] /\
  get_gini (map (fun c => occurrences c ls) cl) None (Some (length ls)) = Ok (g, Fin v) /\
  get_gini (map (fun c => occurrences c ls) cl') None (Some (length ls)) = Ok (g', Fin v') /\
  v = gini_variance ls None /\ v' <> gini_variance ls None.
Proof. exact separate_depends_on_order. Qed.
Print Assumptions C114_three_classes_refuted.
Example C114_ex : z 0 <> z 1 /\ incl [z 0; z 1; z 0; z 0] [z 0; z 1] /\ fit_pop (Some 6) 4 /\ gini_variance [z 0; z 1; z 0; z 0] (Some 6) = frac 3 160 /\ gini_variance [z 0; z 1; z 0; z 0] None = frac 3 64.
Proof.
  split; [intros Z; discriminate Z|]. split; [|split; [cbn; lia|split; apply Qc_is_canon; vm_compute; reflexivity]].
  intros y I. repeat (destruct I as [<-|I]; [cbn; tauto|]). destruct I.
Qed.

(** ** C115: entropy *)
Theorem C115_entropy_variance_two_classes : forall M c0 c1 ls pop, c0 <> c1 -> incl ls [c0; c1] -> ls <> [] -> fit_pop pop (length ls) ->
  exists g, get_entropy M [occurrences c0 ls; occurrences c1 ls] pop (Some (length ls)) = Ok (g, Fin (entropy_variance (m_log M) ls pop)).
Proof. exact entropy_var_two. Qed.
Print Assumptions C115_entropy_variance_two_classes.

(** ** C116: mean squared error *)
Theorem C116_mse_variance : forall ls, 2 <= length ls ->
  get_mse {| p_n := length ls; p_mean := mean ls; p_var := variance ls |} None = Ok (spread_estimate ls None, spread_variance ls None).
Proof. exact mse_var_none. Qed.
Print Assumptions C116_mse_variance.
Theorem C116_mse_variance_population : forall ls N, 2 <= length ls -> length ls <= N -> 4 <= N ->
  get_mse {| p_n := length ls; p_mean := mean ls; p_var := variance ls |} (Some N) = Ok (spread_estimate ls (Some N), spread_variance ls (Some N)).
Proof. exact mse_var_pop. Qed.
Print Assumptions C116_mse_variance_population.
Theorem C116_never_negative : forall ls pop, 2 <= length ls -> match pop with None => True | Some N => 4 <= N /\ length ls <= N end -> (0 <= spread_variance ls pop)%Qc.
Proof. exact spread_variance_sign. Qed.
Print Assumptions C116_never_negative.
Theorem C116_whole_population : forall ls, 2 <= length ls -> spread_estimate ls (Some (length ls)) = variance ls /\ spread_variance ls (Some (length ls)) = 0%Qc.
Proof. exact (fun ls H => conj (spread_estimate_whole ls H) (spread_variance_whole ls)). Qed.
Print Assumptions C116_whole_population.
Example C116_ex : spread_estimate [z 1; z 3; z 5] None = z 4 /\ spread_variance [z 1; z 3; z 5] None = z 16 /\ spread_estimate [z 1; z 3; z 5] (Some 6) = frac 10 3 /\ spread_variance [z 1; z 3; z 5] (Some 6) = frac 32 3.
Proof. repeat split; apply Qc_is_canon; vm_compute; reflexivity. Qed.

(** ** C117: the variance of a reported impurity change *)
Theorem C117_gini_change_variance : forall f uf fd cl nb mn mx ty t h0 t' edges batches h M bins pop irs vs i b e v,
  new_hist true f uf fd cl nb mn mx ty t = Ok (h0, t') -> good_bins ty nb mn mx uf -> NoDup cl ->
  h_edges h0 = Some edges -> add_all h0 batches = Ok h ->
  let T := rows_of batches in
  get_impurity_reductions M GINI h bins pop = Ok (irs, vs) ->
  nth_error bins i = Some b -> nth_error edges b = Some e -> nth_error vs i = Some v ->
  left_part f e T <> [] -> right_part f e T <> [] -> populated pop T f e ->
  v = Fin (change_variance (separate_variance cl) T f e pop).
Proof. exact gini_change_variance. Qed.
Print Assumptions C117_gini_change_variance.
Theorem C117_two_class_change_variance : forall f uf fd c0 c1 nb mn mx ty t h0 t' edges batches h M m bins pop irs vs i b e v,
  new_hist true f uf fd [c0; c1] nb mn mx ty t = Ok (h0, t') -> good_bins ty nb mn mx uf -> c0 <> c1 ->
  h_edges h0 = Some edges -> add_all h0 batches = Ok h ->
  let T := rows_of batches in
  get_impurity_reductions M m h bins pop = Ok (irs, vs) ->
  nth_error bins i = Some b -> nth_error edges b = Some e -> nth_error vs i = Some v ->
  left_part f e T <> [] -> right_part f e T <> [] -> populated pop T f e ->
  (m = GINI -> v = Fin (change_variance gini_variance T f e pop)) /\
  (m = ENTROPY -> v = Fin (change_variance (entropy_variance (m_log M)) T f e pop)).
Proof. exact two_class_change_variance. Qed.
Print Assumptions C117_two_class_change_variance.
Theorem C117_mse_change_and_variance : forall f uf fd cl nb mn mx ty t h0 t' edges X Y h M bins pop irs vs i b e ir v,
  new_hist false f uf fd cl nb mn mx ty t = Ok (h0, t') -> good_bins ty nb mn mx uf ->
  h_edges h0 = Some edges -> hist_add h0 X Y = Ok h ->
  let T := combine X Y in
  get_impurity_reductions M MSE h bins pop = Ok (irs, vs) ->
  nth_error bins i = Some b -> nth_error edges b = Some e -> nth_error irs i = Some ir -> nth_error vs i = Some v ->
  let L := left_part f e T in let R := right_part f e T in
  let PL := side_population pop (length L) (length T) in let PR := side_population pop (length R) (length T) in
  2 <= length L -> 2 <= length R ->
  match pop, PL, PR with Some n, Some nl, Some nr => length T <= n /\ 4 <= nl /\ 4 <= nr | _, _, _ => True end ->
  ir = (rat (length L) / rat (length T) * spread_estimate (labels_of L) PL + rat (length R) / rat (length T) * spread_estimate (labels_of R) PR
        - spread_estimate (labels_of T) pop)%Qc /\
  v = Fin (change_variance spread_variance T f e pop).
Proof. exact regr_change_variance. Qed.
Print Assumptions C117_mse_change_and_variance.
Example C117_class_ex : exists h0 t' h,
  new_hist true 0 None [] [z 0; z 1] 3 (z 1) (z 6) LINEAR [] = Ok (h0, t') /\
  add_all h0 [(X6, [z 0; z 1; z 0; z 1; z 1; z 1])] = Ok h /\
  populated (Some 10) (rows_of [(X6, [z 0; z 1; z 0; z 1; z 1; z 1])]) 0 (frac 7 2) /\
  check (get_impurity_reductions M0 GINI h [1] (Some 10)) (fun rv => match snd rv with [Fin a] => qlt 0 a | _ => false end) = true.
Proof.
  do 3 eexists. split; [reflexivity|]. split; [vm_compute; reflexivity|]. split; [repeat split; vm_compute; lia|]. vm_compute. reflexivity.
Qed.
Example C117_regr_ex : exists h0 t' h,
  new_hist false 0 None (map (fun r => nth 0 r 0%Qc) X6) [] 6 (z 1) (z 6) IDENTITY [] = Ok (h0, t') /\
  hist_add h0 X6 T6 = Ok h /\
  length (left_part 0 (z 3) (combine X6 T6)) = 3 /\ side_population (Some 10) 3 6 = Some 5 /\
  check (get_impurity_reductions M0 MSE h [2] (Some 10)) (fun rv => match snd rv with [Fin a] => qlt 0 a | _ => false end) = true.
Proof.
  do 3 eexists. split; [reflexivity|]. split; [vm_compute; reflexivity|]. split; [vm_compute; reflexivity|]. split; vm_compute; reflexivity.
Qed.

(** Property theorems C01-C07, C61, C68: histograms and impurity. *)
From Coq Require Import List Arith Bool ZArith QArith Qcanon Lia Sorted.
From Verif Require Import Base Num Rng Histogram Criteria Spec NumFacts HistFacts HistAdd CritFacts
  ReductionFacts HistProps HistProps2 Samples.
Import ListNotations.
Local Open Scope nat_scope.

(** ** C01.  [get_bin .. v <= b] is the code's condition for counting v on the left of edge b
    (insert_left / the mask of update_bins). *)
Theorem C01_bin_agrees_with_comparison :
  forall ic f uf fd cl nb mn mx ty t h t' edges v b e,
  new_hist ic f uf fd cl nb mn mx ty t = Ok (h, t') ->
  (ty = LINEAR /\ (mn <= mx)%Qc /\ 2 <= nb) \/ ty = RANDOM \/ ty = IDENTITY \/
  (ty = DISCRETE /\ exists l, uf = Some (DList l) /\ StronglySorted Qcle l) ->
  h_edges h = Some edges -> nth_error edges b = Some e ->
  (get_bin (h_type h) (h_min h) (h_max h) (h_nb h) edges v <= b <-> (v <= e)%Qc).
Proof. exact bin_matches_edge_all. Qed.
Print Assumptions C01_bin_agrees_with_comparison.

Example C01_case : exists h t' edges e,
  new_hist true 0 None [] [z 0; z 1] 4 (z 0) (z 10) LINEAR [] = Ok (h, t') /\
  (z 0 <= z 10)%Qc /\ h_edges h = Some edges /\ nth_error edges 1 = Some e /\
  get_bin (h_type h) (h_min h) (h_max h) (h_nb h) edges (z 3) = 1 /\
  get_bin (h_type h) (h_min h) (h_max h) (h_nb h) edges (z 4) = 2 /\ qlt (z 3) e = true /\ qlt e (z 4) = true.
Proof.
  do 4 eexists. split; [reflexivity|]. split; [discriminate|]. split; [reflexivity|].
  split; [reflexivity|]. repeat split; vm_compute; reflexivity.
Qed.

(** With a single LINEAR bin the agreement fails: a value above the only edge is counted left. *)
Theorem C01_single_bin_refuted : exists h t' edges v e,
  new_hist true 0 None [] [z 0; z 1] 1 (z 0) (z 10) LINEAR [] = Ok (h, t') /\
  h_edges h = Some edges /\ nth_error edges 0 = Some e /\
  get_bin (h_type h) (h_min h) (h_max h) (h_nb h) edges v <= 0 /\ ~ (v <= e)%Qc.
Proof. exact single_bin_wrong. Qed.
Print Assumptions C01_single_bin_refuted.

(** ** C68. The candidate edges are what the bin type promises. *)
Theorem C68_linear_edges : forall ic f uf fd cl nb mn mx t h t' edges,
  new_hist ic f uf fd cl nb mn mx LINEAR t = Ok (h, t') -> h_edges h = Some edges ->
  mn <> mx /\ length edges = nb /\
  (forall b e, nth_error edges b = Some e ->
     (e * rat (nb - 1) = mn * rat (nb - 1) + (mx - mn) * rat b)%Qc \/ nb = 1) /\
  (1 <= nb -> nth_error edges 0 = Some mn) /\
  (2 <= nb -> nth_error edges (nb - 1) = Some mx).
Proof. exact linear_edges_spec. Qed.
Print Assumptions C68_linear_edges.

Theorem C68_identity_edges : forall ic f uf fd cl nb mn mx t h t' edges,
  new_hist ic f uf fd cl nb mn mx IDENTITY t = Ok (h, t') -> h_edges h = Some edges ->
  StronglySorted Qclt edges /\ (forall x, In x edges <-> In x fd).
Proof. exact identity_edges_spec. Qed.
Print Assumptions C68_identity_edges.

Theorem C68_random_edges : forall ic f uf fd cl nb mn mx t h t' edges,
  new_hist ic f uf fd cl nb mn mx RANDOM t = Ok (h, t') -> h_edges h = Some edges -> (mn <= mx)%Qc ->
  length edges = nb /\ StronglySorted Qcle edges /\
  (forall x, In x edges -> (mn <= x)%Qc /\ (x <= mx)%Qc /\ (x = mx -> mn = mx)).
Proof. exact random_edges_spec. Qed.
Print Assumptions C68_random_edges.

Example C68_case : exists h t' edges,
  new_hist false 0 None [z 3; z 1; z 3] [] 9 (z 0) (z 0) IDENTITY [] = Ok (h, t') /\
  h_edges h = Some edges /\ length edges = 2.
Proof. do 3 eexists. split; [reflexivity|]. split; [reflexivity|]. vm_compute. reflexivity. Qed.

(** ** C02. [add_all] performs the add() calls one after the other, [rows_of] is everything
    that was inserted. *)
Theorem C02_classification_histogram_counts :
  forall f uf fd cl nb mn mx ty t h0 t' edges batches h,
  new_hist true f uf fd cl nb mn mx ty t = Ok (h0, t') -> good_bins ty nb mn mx uf -> NoDup cl ->
  h_edges h0 = Some edges -> add_all h0 batches = Ok h ->
  let T := rows_of batches in
  length (h_left h) = length edges /\ length (h_right h) = length edges /\
  forall b e, nth_error edges b = Some e ->
    nth_error (h_left h) b = Some (map (fun c => occurrences c (labels_of (left_part f e T))) cl) /\
    nth_error (h_right h) b = Some (map (fun c => occurrences c (labels_of (right_part f e T))) cl).
Proof. exact class_history_true. Qed.
Print Assumptions C02_classification_histogram_counts.

Theorem C02_nothing_lost :
  forall f uf fd cl nb mn mx ty t h0 t' edges batches h b e l r,
  new_hist true f uf fd cl nb mn mx ty t = Ok (h0, t') -> good_bins ty nb mn mx uf -> NoDup cl ->
  h_edges h0 = Some edges -> add_all h0 batches = Ok h ->
  nth_error edges b = Some e -> nth_error (h_left h) b = Some l -> nth_error (h_right h) b = Some r ->
  fold_right Nat.add 0 l + fold_right Nat.add 0 r = length (rows_of batches).
Proof. exact class_history_total. Qed.
Print Assumptions C02_nothing_lost.

Example C02_case : exists h0 t' h,
  new_hist true 0 None [] [z 0; z 1] 3 (z 1) (z 6) LINEAR [] = Ok (h0, t') /\
  good_bins LINEAR 3 (z 1) (z 6) None /\ NoDup [z 0; z 1] /\
  add_all h0 [(X6, Y6); (X6, Y6)] = Ok h /\ h_left h = [[2; 0]; [6; 0]; [6; 6]].
Proof.
  do 3 eexists. split; [reflexivity|]. split; [split; [discriminate|lia]|].
  split. { constructor; [|constructor; [intros []|constructor]]. intros [E|[]]. apply (f_equal this) in E. discriminate. }
  split; [vm_compute; reflexivity|]. vm_compute. reflexivity.
Qed.

(** ** C03 *)
Theorem C03_one_batch_exact :
  forall f uf fd cl nb mn mx ty t h0 t' edges X Y h,
  new_hist false f uf fd cl nb mn mx ty t = Ok (h0, t') -> good_bins ty nb mn mx uf ->
  h_edges h0 = Some edges -> hist_add h0 X Y = Ok h ->
  let T := combine X Y in
  let exact (p : pile) (l : list Qc) := p_n p = length l /\ p_mean p = mean l /\ p_var p = variance l in
  length (h_lpile h) = length edges /\ length (h_rpile h) = length edges /\
  exact (h_cpile h) Y /\
  forall b e, nth_error edges b = Some e ->
    (exists p, nth_error (h_lpile h) b = Some p /\ exact p (labels_of (left_part f e T))) /\
    (exists p, nth_error (h_rpile h) b = Some p /\ exact p (labels_of (right_part f e T))).
Proof. exact regr_one_batch. Qed.
Print Assumptions C03_one_batch_exact.

Example C03_case : exists h0 t' h,
  new_hist false 0 None (map (fun r => nth 0 r 0%Qc) X6) [] 6 (z 1) (z 6) IDENTITY [] = Ok (h0, t') /\
  good_bins IDENTITY 6 (z 1) (z 6) None /\ hist_add h0 X6 T6 = Ok h /\
  map p_n (h_lpile h) = [1; 2; 3; 4; 5; 6].
Proof.
  do 3 eexists. split; [reflexivity|]. split; [exact I|]. split; [vm_compute; reflexivity|].
  vm_compute. reflexivity.
Qed.

(** ** C04: counts and means are right over any history, the variance is not. *)
Theorem C04_counts_and_means_partial :
  forall f uf fd cl nb mn mx ty t h0 t' edges batches h,
  new_hist false f uf fd cl nb mn mx ty t = Ok (h0, t') -> good_bins ty nb mn mx uf ->
  h_edges h0 = Some edges -> add_all h0 batches = Ok h ->
  let T := rows_of batches in
  let right_so_far (p : pile) (l : list Qc) := p_n p = length l /\ p_mean p = mean l in
  right_so_far (h_cpile h) (labels_of T) /\
  forall b e, nth_error edges b = Some e ->
    (exists p, nth_error (h_lpile h) b = Some p /\ right_so_far p (labels_of (left_part f e T))) /\
    (exists p, nth_error (h_rpile h) b = Some p /\ right_so_far p (labels_of (right_part f e T))).
Proof. exact regr_history. Qed.
Print Assumptions C04_counts_and_means_partial.

(** Two batches merge exactly when neither has variance zero. *)
Theorem C04_merge_of_spread_batches : forall p l1 l2,
  p_n p = length l1 -> p_mean p = mean l1 -> p_var p = variance l1 ->
  variance l1 <> 0%Qc -> variance l2 <> 0%Qc -> l1 <> [] ->
  p_var (update_bins p l2) = variance (l1 ++ l2).
Proof. exact merge_variance. Qed.
Print Assumptions C04_merge_of_spread_batches.

(** The variance after two batches [1], [3] is reported as 0, it is 1. *)
Theorem C04_variance_refuted : exists h0 t' h,
  new_hist false 0 None [] [] 2 (z 0) (z 1) LINEAR [] = Ok (h0, t') /\
  add_all h0 [([[z 0]], [z 1]); ([[z 0]], [z 3])] = Ok h /\
  p_var (h_cpile h) = 0%Qc /\ variance (labels_of (rows_of [([[z 0]], [z 1]); ([[z 0]], [z 3])])) = 1%Qc.
Proof. exact batch_variance_wrong. Qed.
Print Assumptions C04_variance_refuted.

(** ** C05 *)
Theorem C05_gini_range : forall counts pop n g v,
  get_gini counts pop n = Ok (g, v) -> 0 < fold_right Nat.add 0 counts ->
  n = None \/ n = Some (fold_right Nat.add 0 counts) ->
  (0 <= g)%Qc /\ (g <= 1 - 1 / rat (length counts))%Qc /\
  (g = 0%Qc <-> exists c, In c counts /\ c = fold_right Nat.add 0 counts).
Proof. exact get_gini_range. Qed.
Print Assumptions C05_gini_range.

Theorem C05_gini_succeeds : forall counts pop n, counts <> [] -> exists g v, get_gini counts pop n = Ok (g, v).
Proof. exact get_gini_ok. Qed.
Print Assumptions C05_gini_succeeds.

Example C05_case : check (get_gini [3; 1] None None) (fun gv => qeq (fst gv) (frac 3 8)) = true
  /\ 0 < fold_right Nat.add 0 [3; 1].
Proof. split; [vm_compute; reflexivity|cbn; lia]. Qed.

(** ** C06. What get_impurity_reductions reports on a histogram holding the rows T is the
    Gini change, it is never positive, and negative iff the class distributions differ. *)
Theorem C06_reported_gini_change :
  forall f uf fd cl nb mn mx ty t h0 t' edges batches h M bins pop irs vs i b e ir,
  new_hist true f uf fd cl nb mn mx ty t = Ok (h0, t') -> good_bins ty nb mn mx uf -> NoDup cl ->
  h_edges h0 = Some edges -> add_all h0 batches = Ok h ->
  let T := rows_of batches in
  get_impurity_reductions M GINI h bins pop = Ok (irs, vs) ->
  nth_error bins i = Some b -> nth_error edges b = Some e -> nth_error irs i = Some ir ->
  ir = reduction gini T f e /\ (ir <= 0)%Qc /\
  ((ir < 0)%Qc <->
     exists c, 0 < length (left_part f e T) /\ 0 < length (right_part f e T) /\
       fraction c (labels_of (left_part f e T)) <> fraction c (labels_of (right_part f e T))).
Proof. exact reported_gini. Qed.
Print Assumptions C06_reported_gini_change.

Example C06_case : exists h0 t' h,
  new_hist true 0 None [] [z 0; z 1] 3 (z 1) (z 6) LINEAR [] = Ok (h0, t') /\
  add_all h0 [(X6, Y6)] = Ok h /\
  check (get_impurity_reductions M0 GINI h [0; 1; 2] (Some 6))
        (fun rv => match fst rv with [a; b; c] => qeq a (frac (-1) 10) && qeq b (frac (-1) 2) && qeq c 0 | _ => false end) = true.
Proof.
  do 3 eexists. split; [reflexivity|]. split; [vm_compute; reflexivity|]. vm_compute. reflexivity.
Qed.

(** ** C07 *)
Theorem C07_reported_variance_change :
  forall f uf fd cl nb mn mx ty t h0 t' edges X Y h M bins irs vs i b e ir,
  new_hist false f uf fd cl nb mn mx ty t = Ok (h0, t') -> good_bins ty nb mn mx uf ->
  h_edges h0 = Some edges -> hist_add h0 X Y = Ok h ->
  let T := combine X Y in
  let L := left_part f e T in let R := right_part f e T in
  get_impurity_reductions M MSE h bins (Some (length T)) = Ok (irs, vs) ->
  nth_error bins i = Some b -> nth_error edges b = Some e -> nth_error irs i = Some ir ->
  ir = reduction variance T f e /\
  (L = [] \/ R = [] -> ir = 0%Qc) /\
  (L <> [] -> R <> [] ->
     let d := (mean (labels_of L) - mean (labels_of R))%Qc in
     ir = (- (rat (length L) * rat (length R) / (rat (length T) * rat (length T)) * (d * d)))%Qc /\
     ((ir < 0)%Qc <-> mean (labels_of L) <> mean (labels_of R))) /\
  (ir <= 0)%Qc.
Proof. exact reported_variance. Qed.
Print Assumptions C07_reported_variance_change.

Example C07_case : exists h0 t' h,
  new_hist false 0 None (map (fun r => nth 0 r 0%Qc) X6) [] 6 (z 1) (z 6) IDENTITY [] = Ok (h0, t') /\
  hist_add h0 X6 T6 = Ok h /\
  check (get_impurity_reductions M0 MSE h [2] (Some 6))
        (fun rv => match fst rv with [a] => qeq a (frac (-25) 4) | _ => false end) = true.
Proof.
  do 3 eexists. split; [reflexivity|]. split; [vm_compute; reflexivity|]. vm_compute. reflexivity.
Qed.

(** ** C61 *)
Theorem C61_gini_variance_collapses :
  forall f uf fd cl nb mn mx ty t h0 t' edges batches h M bins irs vs i b e v,
  new_hist true f uf fd cl nb mn mx ty t = Ok (h0, t') -> good_bins ty nb mn mx uf -> NoDup cl ->
  h_edges h0 = Some edges -> add_all h0 batches = Ok h ->
  let T := rows_of batches in
  get_impurity_reductions M GINI h bins (Some (length T)) = Ok (irs, vs) ->
  nth_error bins i = Some b -> nth_error edges b = Some e -> nth_error vs i = Some v ->
  2 <= length (left_part f e T) -> 2 <= length (right_part f e T) -> v = Fin 0.
Proof. exact gini_variance_collapses. Qed.
Print Assumptions C61_gini_variance_collapses.

Theorem C61_mse_variance_collapses :
  forall f uf fd cl nb mn mx ty t h0 t' edges X Y h M bins irs vs i b e v,
  new_hist false f uf fd cl nb mn mx ty t = Ok (h0, t') -> good_bins ty nb mn mx uf ->
  h_edges h0 = Some edges -> hist_add h0 X Y = Ok h ->
  get_impurity_reductions M MSE h bins (Some (length X)) = Ok (irs, vs) ->
  nth_error bins i = Some b -> nth_error edges b = Some e -> nth_error vs i = Some v -> v = Fin 0.
Proof. exact mse_variance_collapses. Qed.
Print Assumptions C61_mse_variance_collapses.

(** A side holding a single row makes the Gini variance NaN although all rows were seen. *)
Theorem C61_single_row_side_refuted : exists h0 t' h irs v1 v2,
  new_hist true 0 None [] [z 0; z 1] 2 (z 0) (z 3) LINEAR [] = Ok (h0, t') /\
  add_all h0 [([[z 0]; [z 1]; [z 2]; [z 3]], [z 0; z 0; z 1; z 1])] = Ok h /\
  get_impurity_reductions M0 GINI h [0; 1] (Some 4) = Ok (irs, [v1; v2]) /\ v1 = NaN.
Proof. exact single_row_side_nan. Qed.
Print Assumptions C61_single_row_side_refuted.

Example C61_case : exists h0 t' h,
  new_hist true 0 None [] [z 0; z 1] 3 (z 1) (z 6) LINEAR [] = Ok (h0, t') /\
  add_all h0 [(X6, Y6)] = Ok h /\
  length (left_part 0 (frac 7 2) (rows_of [(X6, Y6)])) = 3 /\
  length (right_part 0 (frac 7 2) (rows_of [(X6, Y6)])) = 3 /\
  check (get_impurity_reductions M0 GINI h [1] (Some 6))
        (fun rv => match snd rv with [Fin a] => qeq a 0 | _ => false end) = true.
Proof.
  do 3 eexists. split; [reflexivity|]. split; [vm_compute; reflexivity|].
  repeat split; vm_compute; reflexivity.
Qed.

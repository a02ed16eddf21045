(** The vectorised impurity changes on histograms filled by any sequence of batches. *)
From Coq Require Import List Arith Bool ZArith QArith Qcanon Lia.
From Verif Require Import Base Num Rng Histogram Criteria Vector Spec NumFacts ListFacts HistFacts HistAdd CritFacts HistProps HistProps2 MabMore VectorFacts VectorRed Samples.
Import ListNotations.
Local Open Scope nat_scope.

Lemma class_hist_shape f uf fd cl nb mn mx ty t h0 t' edges batches h :
  new_hist true f uf fd cl nb mn mx ty t = Ok (h0, t') -> good_bins ty nb mn mx uf -> NoDup cl ->
  h_edges h0 = Some edges -> add_all h0 batches = Ok h -> rows_of batches <> [] ->
  let tot := class_counts cl (labels_of (rows_of batches)) in
  h_class h = true /\ h_nb h = length edges /\ h_nb h = length (h_left h) /\ h_nb h = length (h_right h) /\ sum_nat tot <> 0 /\
  (forall b l r, nth_error (h_left h) b = Some l -> nth_error (h_right h) b = Some r ->
     map (fun ab => fst ab + snd ab) (combine l r) = tot /\ sum_nat l + sum_nat r = sum_nat tot) /\
  (forall b, b < length edges -> length (nth b (h_left h) []) = length tot /\ length (nth b (h_right h) []) = length tot).
Proof.
  intros H G ND E HA NT tot. destruct (class_history_true _ _ _ _ _ _ _ _ _ _ _ _ _ _ H G ND E HA) as [L1 [L2 K]].
  destruct (built_class _ _ _ _ _ _ _ _ _ _ _ _ _ _ H G ND E HA) as [C [F [CL [_ IN]]]].
  destruct (new_hist_fresh _ _ _ _ _ _ _ _ _ _ _ _ H) as [_ FR]. rewrite E in FR. destruct FR as [LE _].
  destruct (add_all_same _ _ _ HA) as [_ [_ [_ [NB _]]]].
  assert (ST : sum_nat tot = length (rows_of batches)). { unfold tot. rewrite sum_class_counts, labels_length; auto. }
  split; [exact C|]. split; [congruence|]. split; [congruence|]. split; [congruence|]. split.
  { rewrite ST. destruct (rows_of batches); [congruence|discriminate]. }
  split.
  - intros b l r El Er. assert (B : b < length edges) by (rewrite <- L1; apply nth_error_Some; congruence).
    destruct (nth_error edges b) as [e|] eqn:Ee; [|apply nth_error_None in Ee; lia]. split.
    + destruct (K b e Ee) as [K1 K2]. rewrite El in K1. rewrite Er in K2. injection K1 as ->. injection K2 as ->.
      rewrite combine_maps, map_map. unfold tot, class_counts. apply map_ext. intros c. cbn [fst snd]. symmetry. apply parts_occurrences.
    + rewrite ST. exact (class_history_total _ _ _ _ _ _ _ _ _ _ _ _ _ _ _ _ _ _ H G ND E HA Ee El Er).
  - intros b B. destruct (nth_error edges b) as [e|] eqn:Ee; [|apply nth_error_None in Ee; lia]. destruct (K b e Ee) as [K1 K2].
    unfold tot, class_counts. rewrite map_length. split.
    + rewrite (nth_error_nth _ _ _ K1). apply map_length.
    + rewrite (nth_error_nth _ _ _ K2). apply map_length.
Qed.

Lemma vec_gini_history f uf fd cl nb mn mx ty t h0 t' edges batches h M m bins pop irs vs :
  new_hist true f uf fd cl nb mn mx ty t = Ok (h0, t') -> good_bins ty nb mn mx uf -> NoDup cl ->
  h_edges h0 = Some edges -> add_all h0 batches = Ok h -> rows_of batches <> [] ->
  bins <> [] -> length bins <= length edges -> (forall b, In b bins -> b < length edges) -> m = GINI \/ m = MAuto ->
  (get_impurity_reductions M m h bins pop = Ok (irs, vs) <-> vec_reductions M m h bins pop = Ok (map Fin irs, vs)).
Proof.
  intros H G ND E HA NT NE LB INR MM. destruct (class_hist_shape _ _ _ _ _ _ _ _ _ _ _ _ _ _ H G ND E HA NT) as [C [NB [LL [LR [POS [TOT SHP]]]]]].
  rewrite <- NB in LB. apply (gini_vec M h bins pop (class_counts cl (labels_of (rows_of batches)))); auto. intros b I. rewrite NB. now apply INR.
Qed.

Lemma vec_entropy_history f uf fd cl nb mn mx ty t h0 t' edges batches h M bins pop irs vs :
  new_hist true f uf fd cl nb mn mx ty t = Ok (h0, t') -> good_bins ty nb mn mx uf -> NoDup cl ->
  h_edges h0 = Some edges -> add_all h0 batches = Ok h -> rows_of batches <> [] ->
  bins <> [] -> (forall b, In b bins -> b < length edges) ->
  get_impurity_reductions M ENTROPY h bins pop = Ok (irs, vs) ->
  exists vs', vec_reductions M ENTROPY h bins pop = Ok (map Fin irs, vs') /\ length vs' = length vs /\ forall d, last vs' d = last vs d.
Proof.
  intros H G ND E HA NT NE INR R. destruct (class_hist_shape _ _ _ _ _ _ _ _ _ _ _ _ _ _ H G ND E HA NT) as [C [NB [LL [LR [POS [TOT SHP]]]]]].
  assert (LB : length bins <= h_nb h). { pose proof R as R2. unfold get_impurity_reductions in R2. apply rbind_ok in R2. destruct R2 as [[] [Q _]]. apply guard_ok in Q. now apply Nat.leb_le in Q. }
  apply (entropy_vec M h bins pop (class_counts cl (labels_of (rows_of batches)))); auto. intros b I. rewrite NB. now apply INR.
Qed.

Lemma vec_regr_history f uf fd cl nb mn mx ty t h0 t' edges batches h M m bins pop irs vs :
  new_hist false f uf fd cl nb mn mx ty t = Ok (h0, t') -> good_bins ty nb mn mx uf ->
  h_edges h0 = Some edges -> add_all h0 batches = Ok h -> rows_of batches <> [] ->
  bins <> [] -> length bins <= length edges -> (forall b, In b bins -> b < length edges) -> m = MSE \/ m = MAuto ->
  (get_impurity_reductions M m h bins pop = Ok (irs, vs) <-> vec_reductions M m h bins pop = Ok (map Fin irs, vs)).
Proof.
  intros H G E HA NT NE LB INR MM. destruct (regr_history _ _ _ _ _ _ _ _ _ _ _ _ _ _ H G E HA) as [_ K].
  destruct (new_hist_fields _ _ _ _ _ _ _ _ _ _ _ _ H) as [F1 _].
  destruct (new_hist_fresh _ _ _ _ _ _ _ _ _ _ _ _ H) as [_ FR]. rewrite E, F1 in FR. destruct FR as [LE [FL FRR]].
  destruct (add_all_same _ _ _ HA) as [C [_ [_ [NB _]]]]. rewrite F1 in C.
  assert (LL : length (h_lpile h) = h_nb h /\ length (h_rpile h) = h_nb h).
  { clear - HA FL FRR F1 C NB. assert (Q : length (h_lpile h0) = h_nb h0 /\ length (h_rpile h0) = h_nb h0) by (rewrite FL, FRR, !repeat_length; auto). clear FL FRR C.
    rewrite NB. clear NB. revert h0 HA F1 Q. induction batches as [|[X Y] bs IH]; intros h0 HA F1 Q; unfold add_all in HA; cbn [foldM fst snd] in HA.
    - injection HA as <-. exact Q.
    - apply rbind_ok in HA. destruct HA as [h1 [E1 HA]]. destruct (hist_add_same _ _ _ _ E1) as [S1 [_ [_ [S4 _]]]]. rewrite <- S4. apply IH; [exact HA|congruence|].
      rewrite S4. unfold hist_add in E1. rewrite F1 in E1. inv_ok E1. subst. cbn. rewrite ?mapi_length. exact Q. }
  destruct LL as [LL LR].
  apply (regr_vec m h bins pop (length (rows_of batches))); auto; try lia.
  - intros b I. rewrite NB, <- LE. now apply INR.
  - intros b l r El Er. assert (B : b < length edges) by (rewrite LE, <- NB, <- LL; apply nth_error_Some; congruence).
    destruct (nth_error edges b) as [e|] eqn:Ee; [|apply nth_error_None in Ee; lia].
    destruct (K b e Ee) as [[p [P1 [P2 _]]] [q [Q1 [Q2 _]]]]. rewrite El in P1. rewrite Er in Q1. injection P1 as ->. injection Q1 as ->.
    rewrite P2, Q2, !labels_length. apply parts_length.
  - destruct (rows_of batches); [congruence|discriminate].
Qed.

(** ** Where the two programs differ *)
Definition wrong_counts : Prop := exists h0 t' X Y hs hv,
  new_hist true 0 None [] [z (-1); z 1] 2 (z 0) (z 1) LINEAR [] = Ok (h0, t') /\ NoDup [z (-1); z 1] /\ incl Y [z (-1); z 1] /\
  hist_add h0 X Y = Ok hs /\ vec_add h0 X Y = Ok hv /\ h_left hs = [[1; 0]; [2; 1]] /\ h_left hv = [[0; 1]; [0; 3]].
Lemma negative_classes : wrong_counts.
Proof.
  do 2 eexists. exists [[z 0]; [z 1]; [z 1]], [z (-1); z (-1); z 1]. do 2 eexists. split; [reflexivity|].
  split. { constructor; [|constructor; [intros []|constructor]]. intros [E|[]]. apply (f_equal this) in E. discriminate. }
  split. { intros y [<-|[<-|[<-|[]]]]; cbn; auto. }
  split; [vm_compute; reflexivity|]. split; [vm_compute; reflexivity|]. split; vm_compute; reflexivity.
Qed.

Lemma unknown_class : exists h0 t' hv,
  new_hist true 0 None [] [z 0; z 2] 2 (z 0) (z 1) LINEAR [] = Ok (h0, t') /\ ~ In (z 1) [z 0; z 2] /\
  hist_add h0 [[z 0]; [z 1]] [z 1; z 2] = Err ValueError /\ vec_add h0 [[z 0]; [z 1]] [z 1; z 2] = Ok hv /\ h_left hv = [[1; 0]; [1; 1]].
Proof.
  do 3 eexists. split; [reflexivity|]. split. { intros [E|[E|[]]]; apply (f_equal this) in E; discriminate. }
  split; [vm_compute; reflexivity|]. split; vm_compute; reflexivity.
Qed.

(** The natural logarithm to six digits where the example needs it. *)
Definition Mlog : math :=
  {| m_sqrt := fun _ => 0%Qc;
     m_log := fun q => if qeq q 1%Qc then 0%Qc else if qeq q (frac 1 2) then frac (-693147) 1000000
                       else if qeq q (frac 1 3) then frac (-1098612) 1000000 else if qeq q (frac 2 3) then frac (-405465) 1000000 else 0%Qc |}.
Lemma entropy_variances_differ : exists h0 t' h irs v0 v1 w0,
  new_hist true 0 None [] [z 0; z 1] 3 (z 1) (z 3) LINEAR [] = Ok (h0, t') /\
  add_all h0 [([[z 1]; [z 2]; [z 3]], [z 0; z 1; z 0])] = Ok h /\
  get_impurity_reductions Mlog ENTROPY h [0; 1] None = Ok (irs, [Fin v0; v1]) /\
  vec_reductions Mlog ENTROPY h [0; 1] None = Ok (map Fin irs, [Fin w0; v1]) /\ (v0 < w0)%Qc.
Proof.
  do 7 eexists. split; [reflexivity|]. split; [vm_compute; reflexivity|]. split; [vm_compute; reflexivity|]. split; vm_compute; reflexivity.
Qed.

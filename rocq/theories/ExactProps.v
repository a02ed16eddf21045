(** The exact solver, in terms of the data. *)
From Coq Require Import List Arith Bool ZArith QArith Qcanon Lia Permutation Sorted.
From Verif Require Import Base Num Rng Histogram Utils Criteria Solvers Spec SolverSpec NumFacts ListFacts HistFacts HistAdd CritFacts ReductionFacts MakeHist SampleFacts HistProps HistProps2 ExactFacts ExactTotal.
Import ListNotations.
Local Open Scope nat_scope.

Definition edges_of (hs : list hist) (f : nat) : list Qc :=
  match nth_error hs f with
  | Some h => match h_edges h with Some e => e | None => [] end
  | None => []
  end.
Lemma edge_at_edges hs f b v : edge_at hs f b v <-> nth_error (edges_of hs f) b = Some v.
Proof.
  unfold edge_at, edges_of. split.
  - intros [h [e [-> [-> H]]]]. exact H.
  - destruct (nth_error hs f) as [h|]; [|destruct b; discriminate].
    destruct (h_edges h) as [e|] eqn:E; [|destruct b; discriminate]. intros. exists h, e. auto.
Qed.

Lemma unique_length_nodup l : length (unique l) = length (nodup Qc_eq_dec l).
Proof.
  apply Permutation_length, NoDup_Permutation.
  - apply unique_nodup.
  - apply NoDup_nodup.
  - intros x. rewrite unique_in. symmetry. apply nodup_In.
Qed.

Lemma imp_of_impurity M c labels : measure_ok (s_class c) (s_measure c) labels ->
  imp_of M c = impurity M c.
Proof.
  unfold measure_ok, imp_of, impurity, class_imp. destruct (s_class c); auto.
Qed.

Section Solvable.
Context (c : scfg) (data : list (list Qc)) (labels : list Qc) (W : nat) (S : solvable c data labels W).

Lemma sv_type : s_bin c = LINEAR \/ s_bin c = IDENTITY \/ s_bin c = RANDOM.
Proof. destruct S as [_ _ _ H _ _ _]. destruct (s_bin c); auto; contradiction. Qed.
Lemma sv_minmax_ok : minmax_ok (s_minmax c).
Proof. destruct S as [_ _ _ _ H _ _]. destruct (s_minmax c) as [[? ?]|]; cbn; auto. apply H. Qed.
Lemma sv_covers : minmax_covers W (s_minmax c).
Proof. destruct S as [_ _ _ _ H _ _]. destruct (s_minmax c) as [[? ?]|]; cbn; auto. tauto. Qed.
Lemma sv_readable : dd_readable W (s_dd c).
Proof. destruct S as [_ _ _ _ _ H _]. exact H. Qed.
Lemma sv_config : good_config (s_bin c) (bins_of c (length data)) (length data) (s_minmax c) (s_dd c).
Proof.
  pose proof sv_minmax_ok. destruct S as [_ _ _ Hb _ _ _]. unfold bins_of.
  destruct (s_bin c); cbn; auto; contradiction.
Qed.
Lemma sv_measure_ok : measure_ok (s_class c) (s_measure c) (length (unique labels)).
Proof.
  destruct S as [_ _ _ _ _ _ H]. unfold measure_ok. destruct (s_class c); auto. now rewrite unique_length_nodup.
Qed.
Lemma sv_first : exists r0, nth_error data 0 = Some r0 /\ length r0 = W.
Proof.
  destruct S as [R N _ _ _ _ _]. destruct data as [|r d] eqn:E; [contradiction|]. exists r. split; auto. apply R. now left.
Qed.

Lemma col_values f fd : col data f = Ok fd -> fd = feature_values data f.
Proof. intros H. now apply col_ok in H. Qed.

(** Histograms hold the candidate edges. *)
Lemma sv_candidates mh np : make_histograms (s_class c) data labels (s_minmax c) (s_dd c) (s_bin c)
               (bins_of c (length data)) np = Ok mh ->
  length (mh_hists mh) = W /\
  forall f, f < W -> candidates (s_bin c) (nbins c data) (s_minmax c) data f (edges_of (mh_hists mh) f) /\
                length (edges_of (mh_hists mh) f) <= nbins c data.
Proof.
  intros H. destruct sv_first as [r0 [Hr L0]].
  destruct (make_histograms_rule _ _ _ _ _ _ _ _ _ _ H Hr) as [HL HR]. split; [congruence|].
  intros f Hf. unfold edges_of. destruct (nth_error (mh_hists mh) f) as [h|] eqn:E; [|apply nth_error_None in E; lia].
  destruct (HR f h E) as [fd [Ec R]]. apply col_values in Ec.
  unfold bins_of in R. fold (nbins c data) in R.
  destruct sv_type as [Q|[Q|Q]]; rewrite Q in *; cbn [edge_rule candidates] in *.
  - destruct R as [a [b [Hab R]]].
    assert (RG : range_of (s_minmax c) data f a b).
    { unfold range_of. destruct (s_minmax c) as [[? ?]|]; auto. subst fd. destruct Hab as [H1 H2].
      apply list_min_spec in H1. apply list_max_spec in H2. split; auto. }
    rewrite R. destruct (qeq a b) eqn:QQ.
    + apply qeq_spec in QQ. split; [|cbn; lia]. exists a, b. auto.
    + apply qeq_false in QQ. rewrite linear_bin_length. split; [|unfold nbins; rewrite Q; auto]. exists a, b. split; [exact RG|].
      right. split; [exact QQ|]. unfold nbins. rewrite Q. reflexivity.
  - rewrite R. subst fd. split; [split; [apply unique_sorted|apply unique_in]|].
    unfold nbins. rewrite Q. eapply Nat.le_trans; [apply unique_length|]. unfold feature_values. now rewrite map_length.
  - destruct R as [a [b [t [H1 [H2 R]]]]]. rewrite R. rewrite random_bin_length. subst fd.
    pose proof (list_min_max _ _ _ H1 H2) as Hab.
    apply list_min_spec in H1. apply list_max_spec in H2. split; [|unfold nbins; rewrite Q; auto].
    exists a, b. split; auto. split; auto. split; auto.
    unfold random_bin. pose proof (uniforms_range a b (nbins c data) t) as UR. destruct (uniforms a b (nbins c data) t) as [l t1].
    cbn. split; [apply qsort_sorted|]. intros x I. assert (I' : In x l) by (eapply Permutation_in; [apply qsort_perm|exact I]).
    specialize (UR x Hab I'). tauto.
Qed.

Lemma NoDup_same_length {A} (l1 l2 : list A) : NoDup l1 -> NoDup l2 -> (forall x, In x l1 <-> In x l2) -> length l1 = length l2.
Proof. intros. now apply Permutation_length, NoDup_Permutation. Qed.

Lemma exact_answer M mir e0 out e1 :
  solve_exactly M c data labels mir e0 = Ok (out, e1) ->
  exists E, (forall f, f < W -> candidates (s_bin c) (nbins c data) (s_minmax c) data f (E f)) /\
    right_answer (reduction (impurity M c) (combine data labels)) mir W E out /\
    busy_features W E <> [] /\ sres_q out = length data * length (busy_features W E) /\
    (exists t, e1 = set_np {| e_gen := e_gen e0; e_np := e_np e0; e_py := e_py e0; e_mem := e_mem e0; e_calls := Datatypes.S (e_calls e0) |} t).
Proof.
  intros H. destruct sv_first as [r0 [Hr L0]].
  destruct (exact_core _ _ _ _ _ _ _ _ _ H (sv_labels _ _ _ _ S) Hr sv_config) as [mh [EM [HL [HE [XS [fs [ND [HF [NF Q]]]]]]]]].
  destruct (sv_candidates mh _ EM) as [_ HC]. change (bins_of c (length data)) with (nbins c data) in *.
  rewrite (imp_of_impurity _ _ _ sv_measure_ok) in XS.
  exists (edges_of (mh_hists mh)). split; [intros; now apply HC|].
  assert (LT : forall f b v, nth_error (edges_of (mh_hists mh) f) b = Some v -> f < W /\ b < nbins c data).
  { intros f b v N. assert (f < W).
    { rewrite <- L0, <- HL. apply edge_at_edges in N. destruct N as [h [e [N _]]]. apply nth_error_Some. congruence. }
    split; auto. destruct (HC f H0) as [_ L]. eapply Nat.lt_le_trans; [|exact L]. apply nth_error_Some. congruence. }
  split; [|split; [|split; [|eauto]]].
  - destruct out as [f v r q|q]; cbn.
    + destruct XS as [b [H1 [H2 [H3 [H4 H5]]]]]. apply edge_at_edges in H1. destruct (LT _ _ _ H1). split; auto. exists b.
      split; auto. split; auto. split; auto. intros f' b' v' Hf' N. destruct (LT _ _ _ N).
      apply H5; auto. now apply edge_at_edges.
    + intros f' v' Hf' I. apply In_nth_error in I. destruct I as [b' N]. destruct (LT _ _ _ N). eapply XS; eauto. apply edge_at_edges; eauto.
  - assert (B : forall f, In f fs <-> In f (busy_features W (edges_of (mh_hists mh)))).
    { intros f. rewrite HF. unfold busy_features. rewrite filter_In, in_seq. split.
      - intros [b [v [Hb N]]]. apply edge_at_edges in N. destruct (LT _ _ _ N). split; [lia|].
        destruct (edges_of (mh_hists mh) f); auto. destruct b; discriminate.
      - intros [Hf N]. destruct (edges_of (mh_hists mh) f) as [|v l] eqn:E; [discriminate|].
        assert (N0 : nth_error (edges_of (mh_hists mh) f) 0 = Some v) by now rewrite E.
        exists 0, v. split; [now apply LT in N0|]. now apply edge_at_edges. }
    intros Z. destruct fs as [|f fs']; [contradiction|]. specialize (B f). rewrite Z in B. apply (proj1 B). now left.
  - rewrite Q. f_equal. apply NoDup_same_length; auto.
    + apply NoDup_filter, seq_NoDup.
    + intros f. rewrite HF. unfold busy_features. rewrite filter_In, in_seq. split.
      * intros [b [v [Hb N]]]. apply edge_at_edges in N. destruct (LT _ _ _ N). split; [lia|].
        destruct (edges_of (mh_hists mh) f); auto. destruct b; discriminate.
      * intros [Hf N]. destruct (edges_of (mh_hists mh) f) as [|v l] eqn:E; [discriminate|].
        assert (N0 : nth_error (edges_of (mh_hists mh) f) 0 = Some v) by now rewrite E.
        exists 0, v. split; [now apply LT in N0|]. now apply edge_at_edges.
Qed.

Lemma exact_answers M mir e0 E :
  (forall f, f < W -> candidates (s_bin c) (nbins c data) (s_minmax c) data f (E f)) ->
  busy_features W E <> [] ->
  exists out e1, solve_exactly M c data labels mir e0 = Ok (out, e1).
Proof.
  intros HC NB. destruct (busy_features W E) as [|f l] eqn:EB; [contradiction|].
  assert (I : In f (busy_features W E)) by (rewrite EB; now left).
  unfold busy_features in I. apply filter_In in I. destruct I as [I N]. apply in_seq in I. cbn in I. destruct I as [_ Hf].
  apply (solve_exactly_total M c data labels mir e0 W); try apply S.
  - apply sv_covers. - apply sv_minmax_ok. - apply sv_measure_ok.
  - change (bins_of c (length data)) with (nbins c data). specialize (HC f Hf). unfold has_candidate.
    pose proof (sv_bins _ _ _ _ S) as SB. unfold nbins in *.
    destruct (s_bin c) eqn:Q; cbn in *; try contradiction; try lia.
    split; auto. destruct HC as [lo [hi [RG D]]]. exists f, lo, hi. split; auto.
    assert (lo <> hi) by (destruct D as [[_ D]|[D _]]; auto; rewrite D in N; discriminate).
    split; auto. unfold range_of in RG. destruct (s_minmax c) as [[? ?]|]; auto.
    destruct (col_total data f W (sv_rect _ _ _ _ S) Hf) as [fd Ec]. exists fd. split; auto.
    pose proof (col_values f fd Ec) as ->. destruct RG as [[R1 R2] [R3 R4]].
    destruct (list_min_total (feature_values data f)) as [a Ea]. { intros Z. rewrite Z in R1. destruct R1. }
    destruct (list_max_total (feature_values data f)) as [b Eb]. { intros Z. rewrite Z in R1. destruct R1. }
    destruct (list_min_spec _ _ Ea), (list_max_spec _ _ Eb). rewrite Ea, Eb.
    split; f_equal; apply qle_antisym; auto.
Qed.
End Solvable.

(** ** Candidate lists are determined by the data (LINEAR and IDENTITY) *)
Lemma least_unique l a b : least l a -> least l b -> a = b.
Proof. intros [I1 H1] [I2 H2]. apply qle_antisym; auto. Qed.
Lemma greatest_unique l a b : greatest l a -> greatest l b -> a = b.
Proof. intros [I1 H1] [I2 H2]. apply qle_antisym; auto. Qed.
Lemma range_unique mm data f a b a' b' : range_of mm data f a b -> range_of mm data f a' b' -> a = a' /\ b = b'.
Proof.
  unfold range_of. destruct mm as [[? ?]|]; intros [H1 H2] [H3 H4]; split; try congruence.
  - eapply least_unique; eauto. - eapply greatest_unique; eauto.
Qed.
Lemma candidates_unique bt B mm data f E E' : bt = LINEAR \/ bt = IDENTITY ->
  candidates bt B mm data f E -> candidates bt B mm data f E' -> E = E'.
Proof.
  intros [->| ->]; cbn.
  - intros [a [b [R D]]] [a' [b' [R' D']]]. destruct (range_unique _ _ _ _ _ _ _ R R') as [<- <-].
    destruct D as [[? ->]|[? ->]], D' as [[? ->]|[? ->]]; auto; contradiction.
  - intros [S1 I1] [S2 I2]. apply sorted_lt_ext; auto. intros x. rewrite I1, I2. reflexivity.
Qed.
Lemma candidates_perm bt B mm data data' f E : bt = LINEAR \/ bt = IDENTITY ->
  Permutation data data' -> candidates bt B mm data f E -> candidates bt B mm data' f E.
Proof.
  intros BT P. assert (Q : forall x, In x (feature_values data f) <-> In x (feature_values data' f)).
  { assert (P' : Permutation (feature_values data f) (feature_values data' f)) by now apply Permutation_map.
    intros x. split; intros; eapply Permutation_in; [apply P'|assumption|apply Permutation_sym, P'|assumption]. }
  assert (LQ : forall a, least (feature_values data f) a -> least (feature_values data' f) a).
  { intros a [I H]. split; [now apply Q|]. intros x Ix. apply H. now apply Q. }
  assert (GQ : forall a, greatest (feature_values data f) a -> greatest (feature_values data' f) a).
  { intros a [I H]. split; [now apply Q|]. intros x Ix. apply H. now apply Q. }
  destruct BT as [->| ->]; cbn.
  - intros [a [b [R D]]]. exists a, b. split; auto. unfold range_of in *. destruct mm as [[? ?]|]; auto. destruct R. auto.
  - intros [S1 I1]. split; auto. intros x. rewrite I1. apply Q.
Qed.

(** Right answers are unique. *)
Lemma right_unique red mir W E out out' :
  right_answer red mir W E out -> right_answer red mir W E out' -> sres_q out = sres_q out' -> out = out'.
Proof.
  destruct out as [f v r q|q], out' as [f' v' r' q'|q']; cbn; intros H H' <-; auto.
  - destruct H as [Hf [b [N [-> [M H]]]]], H' as [Hf' [b' [N' [-> [M' H']]]]].
    destruct (H f' b' v' Hf' N') as [L1 T1], (H' f b v Hf N) as [L2 T2].
    assert (Q : red f v = red f' v') by now apply qle_antisym.
    specialize (T1 (eq_sym Q)). specialize (T2 Q). unfold earlier_or_same in *.
    assert (f = f' /\ b = b') as [<- <-] by lia. rewrite N in N'. injection N' as <-. reflexivity.
  - destruct H as [Hf [b [N [-> [M H]]]]]. exfalso. apply nth_error_In in N. specialize (H' f v Hf N).
    eapply qlt_irrefl, qlt_le_trans; eauto.
  - destruct H' as [Hf [b [N [-> [M H']]]]]. exfalso. apply nth_error_In in N. specialize (H f' v' Hf N).
    eapply qlt_irrefl, qlt_le_trans; eauto.
Qed.

(** ** Impurities do not depend on the order of the labels *)
Lemma fraction_perm c l l' : Permutation l l' -> fraction c l = fraction c l'.
Proof. intros P. unfold fraction. now rewrite (occurrences_perm c l l' P), (Permutation_length P). Qed.
Lemma nodup_perm l l' : Permutation l l' -> Permutation (nodup Qc_eq_dec l) (nodup Qc_eq_dec l').
Proof.
  intros P. apply NoDup_Permutation; try apply NoDup_nodup. intros x. rewrite !nodup_In.
  split; apply Permutation_in; auto using Permutation_sym.
Qed.
Lemma total_perm l l' : Permutation l l' -> total l = total l'.
Proof. change total with qsum. apply qsum_perm. Qed.
Lemma gini_perm l l' : Permutation l l' -> gini l = gini l'.
Proof.
  intros P. unfold gini.
  rewrite (total_perm _ _ (Permutation_map (fun c => (fraction c l * fraction c l)%Qc) (nodup_perm _ _ P))).
  erewrite map_ext; [reflexivity|]. intros c. cbn beta. now rewrite (fraction_perm c _ _ P).
Qed.
Lemma entropy_perm lg l l' : Permutation l l' -> entropy lg l = entropy lg l'.
Proof.
  intros P. unfold entropy.
  rewrite (total_perm _ _ (Permutation_map (fun c => (- lg (fraction c l) * fraction c l)%Qc) (nodup_perm _ _ P))).
  erewrite map_ext; [reflexivity|]. intros c. cbn beta. now rewrite (fraction_perm c _ _ P).
Qed.
Lemma mean_perm l l' : Permutation l l' -> mean l = mean l'.
Proof. intros P. unfold mean. now rewrite (total_perm _ _ P), (Permutation_length P). Qed.
Lemma variance_perm l l' : Permutation l l' -> variance l = variance l'.
Proof.
  intros P. unfold variance. rewrite (mean_perm _ _ P), (Permutation_length P). f_equal.
  apply total_perm. now apply Permutation_map.
Qed.
Lemma lump_perm l l' : Permutation l l' -> lump l = lump l'.
Proof. intros P. unfold lump. now rewrite (mean_perm _ _ P), (variance_perm _ _ P), (Permutation_length P). Qed.
Lemma impurity_perm M c l l' : Permutation l l' -> impurity M c l = impurity M c l'.
Proof.
  intros P. unfold impurity. destruct (s_class c); [|destruct (s_measure c); try (now apply variance_perm); now apply lump_perm].
  destruct (s_measure c); try (now apply gini_perm); now apply entropy_perm.
Qed.
Lemma reduction_perm imp T T' f v : (forall l l', Permutation l l' -> imp l = imp l') ->
  Permutation T T' -> reduction imp T f v = reduction imp T' f v.
Proof.
  intros HI P. unfold reduction.
  assert (PL : Permutation (left_part f v T) (left_part f v T')) by now apply filter_perm.
  assert (PR : Permutation (right_part f v T) (right_part f v T')) by now apply filter_perm.
  rewrite (Permutation_length P), (Permutation_length PL), (Permutation_length PR).
  unfold labels_of. rewrite (HI _ _ (Permutation_map snd P)), (HI _ _ (Permutation_map snd PL)), (HI _ _ (Permutation_map snd PR)).
  reflexivity.
Qed.

Lemma solvable_perm c data labels data' labels' W : length labels' = length data' ->
  Permutation (combine data labels) (combine data' labels') -> solvable c data labels W -> solvable c data' labels' W.
Proof.
  intros L P [A1 A2 A3 A4 A5 A6 A7].
  assert (PD : Permutation data data').
  { rewrite <- (map_fst_combine data labels), <- (map_fst_combine data' labels') by lia. now apply Permutation_map. }
  assert (PL : Permutation labels labels').
  { rewrite <- (map_snd_combine data labels), <- (map_snd_combine data' labels') by lia. now apply Permutation_map. }
  split; auto.
  - intros r I. apply A1. eapply Permutation_in; [apply Permutation_sym; eauto|auto].
  - intros ->. apply Permutation_sym, Permutation_nil in PD. contradiction.
  - destruct (s_class c); auto. destruct A7 as [?|[?|[? A7]]]; auto. right. right. split; auto.
    rewrite <- (Permutation_length (nodup_perm _ _ PL)). auto.
Qed.

Lemma busy_ext W E E' : (forall f, f < W -> E f = E' f) -> busy_features W E = busy_features W E'.
Proof.
  intros H. unfold busy_features. apply filter_ext_in. intros f I. apply in_seq in I. rewrite H; auto. lia.
Qed.
Lemma right_ext red red' mir W E E' out : (forall f v, f < W -> red f v = red' f v) -> (forall f, f < W -> E f = E' f) ->
  right_answer red mir W E out -> right_answer red' mir W E' out.
Proof.
  intros HR HE. destruct out as [f v r q|q]; cbn.
  - intros [Hf [b [N [-> [M H]]]]]. split; auto. exists b. rewrite <- HE, <- HR by auto. split; auto. split; auto. split; auto.
    intros f' b' v' Hf' N'. rewrite <- HE in N' by auto. rewrite <- !HR by auto. auto.
  - intros H f' v' Hf' I. rewrite <- HE in I by auto. rewrite <- HR by auto. auto.
Qed.

Lemma exact_perm_one M c data labels data' labels' mir e e' W out e1 :
  solvable c data labels W -> s_bin c = LINEAR \/ s_bin c = IDENTITY ->
  length labels' = length data' -> Permutation (combine data labels) (combine data' labels') ->
  solve_exactly M c data labels mir e = Ok (out, e1) ->
  exists e1', solve_exactly M c data' labels' mir e' = Ok (out, e1').
Proof.
  intros S BT L P H. pose proof (solvable_perm _ _ _ _ _ _ L P S) as S'.
  destruct (exact_answer c data labels W S _ _ _ _ _ H) as [E [HC [HR [HB [HQ _]]]]].
  assert (LL := sv_labels _ _ _ _ S).
  assert (PD : Permutation data data').
  { rewrite <- (map_fst_combine data labels), <- (map_fst_combine data' labels') by lia. now apply Permutation_map. }
  assert (NBE : nbins c data = nbins c data') by (unfold nbins; now rewrite (Permutation_length PD)).
  assert (HC' : forall f, f < W -> candidates (s_bin c) (nbins c data') (s_minmax c) data' f (E f)).
  { intros f Hf. rewrite <- NBE. apply candidates_perm with (data := data); auto. }
  destruct (exact_answers c data' labels' W S' M mir e' E HC' HB) as [out' [e1' H']].
  exists e1'. rewrite H'. f_equal. f_equal.
  destruct (exact_answer c data' labels' W S' _ _ _ _ _ H') as [E2 [HC2 [HR2 [HB2 [HQ2 _]]]]].
  assert (EE : forall f, f < W -> E2 f = E f) by (intros f Hf; eapply candidates_unique; eauto).
  eapply right_unique.
  - eapply right_ext; [| |exact HR2]; [|exact EE]. intros f v Hf.
    rewrite <- (reduction_perm (impurity M c) (combine data labels) (combine data' labels')); auto. apply impurity_perm.
  - exact HR.
  - rewrite HQ2, HQ, (busy_ext W E2 E EE), (Permutation_length PD). reflexivity.
Qed.

(** ** IDENTITY bins cover every threshold *)
Lemma filter_none {A} (p : A -> bool) l : (forall x, In x l -> p x = false) -> filter p l = [].
Proof. induction l as [|a l IH]; cbn; auto. intros H. rewrite H by now left. apply IH. intros. apply H. now right. Qed.
Lemma filter_every {A} (p : A -> bool) l : (forall x, In x l -> p x = true) -> filter p l = l.
Proof. induction l as [|a l IH]; cbn; auto. intros H. rewrite H by now left. f_equal. apply IH. intros. apply H. now right. Qed.

Lemma reduction_same imp T f v w : (forall r, In r T -> is_left f v r = is_left f w r) ->
  reduction imp T f v = reduction imp T f w.
Proof.
  intros H. unfold reduction, left_part, right_part.
  rewrite (filter_ext_in _ _ _ H), (filter_ext_in (fun r => negb (is_left f v r)) (fun r => negb (is_left f w r)) T); auto.
  intros r I. now rewrite H.
Qed.
Lemma Nq_div_self n : 0 < n -> (rat n / rat n = 1)%Qc.
Proof. intros H. change rat with Nq. field. now apply Nq_neq0. Qed.
Lemma reduction_onesided imp T f v : T <> [] ->
  (forall r, In r T -> is_left f v r = true) \/ (forall r, In r T -> is_left f v r = false) ->
  reduction imp T f v = 0%Qc.
Proof.
  intros NT D. unfold reduction, left_part, right_part.
  assert (P : 0 < length T) by (destruct T; [contradiction|cbn; lia]).
  destruct D as [H|H].
  - rewrite (filter_every _ _ H), (filter_none (fun r => negb (is_left f v r))).
    + cbn [length]. rewrite Nq_div_self by auto. change (rat 0) with 0%Qc. unfold Qcdiv. ring.
    + intros r I. now rewrite H.
  - rewrite (filter_none _ _ H), (filter_every (fun r => negb (is_left f v r))).
    + cbn [length]. rewrite Nq_div_self by auto. change (rat 0) with 0%Qc. unfold Qcdiv. ring.
    + intros r I. now rewrite H.
Qed.

Lemma largest_below (l : list Qc) (w : Qc) :
  (exists x, In x l /\ (x <= w)%Qc /\ forall y, In y l -> (y <= w)%Qc -> (y <= x)%Qc) \/ (forall x, In x l -> (w < x)%Qc).
Proof.
  induction l as [|a l IH]; [right; intros x []|].
  destruct (qle_lt_dec a w) as [L|L].
  - left. destruct IH as [[x [I [Lx Hx]]]|H].
    + destruct (qle_lt_dec a x).
      * exists x. split; [now right|]. split; auto. intros y [<-|J] Ly; auto.
      * exists a. split; [now left|]. split; auto. intros y [<-|J] Ly; [apply qle_refl|].
        specialize (Hx y J Ly). qlra.
    + exists a. split; [now left|]. split; auto. intros y [<-|J] Ly; [apply qle_refl|]. specialize (H y J). qlra.
  - destruct IH as [[x [I [Lx Hx]]]|H].
    + left. exists x. split; [now right|]. split; auto. intros y [<-|J] Ly; auto. qlra.
    + right. intros x [<-|J]; auto.
Qed.

Lemma identity_covers imp data labels f w E : data <> [] -> length labels = length data ->
  candidates IDENTITY (length data) None data f E ->
  exists v, In v E /\ reduction imp (combine data labels) f v = reduction imp (combine data labels) f w.
Proof.
  intros NE L [_ HE]. set (T := combine data labels).
  assert (NT : T <> []). { unfold T. destruct data; [contradiction|]. destruct labels; [discriminate|]. discriminate. }
  assert (V : forall r, In r T -> In (value_of f r) (feature_values data f)).
  { intros [x y] I. apply in_combine_l in I. unfold feature_values, value_of. cbn. now apply (in_map (fun r => nth f r 0%Qc)). }
  destruct (largest_below (feature_values data f) w) as [[v [I [Lv Hv]]]|H].
  - exists v. split; [now apply HE|]. apply reduction_same. intros r J. rewrite !is_left_qle.
    specialize (V r J). destruct (qle (value_of f r) w) eqn:Q.
    + apply qle_spec. apply Hv; auto. now apply qle_spec.
    + apply qle_false in Q. apply qle_false. eapply qle_lt_trans; eauto.
  - destruct (list_max_total (feature_values data f)) as [m Em].
    { intros Z. destruct data; [contradiction|discriminate]. }
    apply list_max_spec in Em. destruct Em as [Im Hm]. exists m. split; [now apply HE|].
    rewrite (reduction_onesided imp T f m), (reduction_onesided imp T f w); auto.
    + right. intros r J. rewrite is_left_qle. apply qle_false. apply H. now apply V.
    + left. intros r J. rewrite is_left_qle. apply qle_spec. apply Hm. now apply V.
Qed.

Lemma candidates_identity B B' mm mm' data f E : candidates IDENTITY B mm data f E -> candidates IDENTITY B' mm' data f E.
Proof. auto. Qed.

Lemma exact_identity_best M c data labels W mir e0 out e1 :
  solvable c data labels W -> s_bin c = IDENTITY -> 0 < W ->
  solve_exactly M c data labels mir e0 = Ok (out, e1) ->
  let red := reduction (impurity M c) (combine data labels) in
  match out with
  | Found f v r q => f < W /\ In v (feature_values data f) /\ r = Fin (red f v) /\ (red f v < mir)%Qc /\
      (forall f' w, f' < W -> (red f v <= red f' w)%Qc) /\ q = length data * W
  | NoSplit q => (forall f' w, f' < W -> (mir <= red f' w)%Qc) /\ q = length data * W
  end.
Proof.
  intros S BT HW H red.
  destruct (exact_answer c data labels W S _ _ _ _ _ H) as [E [HC [HR [HB [HQ _]]]]].
  rewrite BT in HC. pose proof (sv_rows _ _ _ _ S) as NE. pose proof (sv_labels _ _ _ _ S) as LL.
  assert (COV : forall f w, f < W -> exists v, In v (E f) /\ red f v = red f w).
  { intros f w Hf. apply identity_covers; auto. eapply candidates_identity; eauto. }
  assert (BQ : length (busy_features W E) = W).
  { unfold busy_features. rewrite filter_every; [apply seq_length|]. intros f I. apply in_seq in I.
    destruct (COV f 0%Qc ltac:(lia)) as [v [Iv _]]. destruct (E f); [destruct Iv|reflexivity]. }
  rewrite BQ in HQ. destruct out as [f v r q|q]; cbn in HR, HQ.
  - destruct HR as [Hf [b [N [Hr [M1 H5]]]]]. split; auto. split; [|split; [auto|split; [auto|split; auto]]].
    + apply (HC f Hf). eapply nth_error_In; eauto.
    + intros f' w Hf'. destruct (COV f' w Hf') as [v' [Iv Ev]]. rewrite <- Ev. apply In_nth_error in Iv. destruct Iv as [b' N'].
      apply (H5 f' b' v' Hf' N').
  - split; auto. intros f' w Hf'. destruct (COV f' w Hf') as [v' [Iv Ev]]. rewrite <- Ev. auto.
Qed.

(** Number of busy features with LINEAR bins: those that are not constant. *)
Lemma linear_busy B data W E : 1 <= B -> rectangular W data -> data <> [] ->
  (forall f, f < W -> candidates LINEAR B None data f (E f)) ->
  forall f, f < W -> (In f (busy_features W E) <-> exists x y, In x (feature_values data f) /\ In y (feature_values data f) /\ x <> y).
Proof.
  intros HB R NE HC f Hf. unfold busy_features. rewrite filter_In, in_seq. specialize (HC f Hf). cbn in HC.
  destruct HC as [lo [hi [[[L1 L2] [G1 G2]] D]]]. split.
  - intros [_ N]. destruct D as [[_ D]|[D _]]; [rewrite D in N; discriminate|]. exists lo, hi. auto.
  - intros [x [y [Ix [Iy Nxy]]]]. split; [lia|]. destruct D as [[D _]|[_ D]].
    + exfalso. apply Nxy. subst hi. 
      apply qle_antisym; eapply qle_trans; eauto.
    + rewrite D. destruct B; [lia|]. reflexivity.
Qed.

(** ** Affine changes of the features *)
Definition rescale (a c : nat -> Qc) (r : list Qc) : list Qc := mapi (fun f x => (a f * x + c f)%Qc) r.
Definition move_split (a c : nat -> Qc) (out : sres) : sres :=
  match out with Found f v r q => Found f (a f * v + c f)%Qc r q | NoSplit q => NoSplit q end.

Lemma rescale_nth a c r f : f < length r -> nth f (rescale a c r) 0%Qc = (a f * nth f r 0 + c f)%Qc.
Proof.
  intros H. unfold rescale. destruct (nth_error r f) as [x|] eqn:E; [|apply nth_error_None in E; lia].
  rewrite (nth_error_nth r f 0%Qc E). apply nth_error_nth. rewrite mapi_nth, E. reflexivity.
Qed.
Lemma rescale_values a c data f W : rectangular W data -> f < W ->
  feature_values (map (rescale a c) data) f = map (fun x => a f * x + c f)%Qc (feature_values data f).
Proof.
  intros R Hf. unfold feature_values. rewrite !map_map. apply map_ext_in. intros r I. apply rescale_nth. rewrite (R r I). auto.
Qed.
Lemma affine_mono a c x y : (0 < a)%Qc -> (a * x + c <= a * y + c <-> x <= y)%Qc.
Proof. intros H. split; intros; [destruct (qle_lt_dec x y); auto; exfalso|]; qnra. Qed.

Lemma reduction_rescale imp a c data labels W f v : rectangular W data -> f < W -> (0 < a f)%Qc ->
  length labels = length data ->
  reduction imp (combine (map (rescale a c) data) labels) f (a f * v + c f)%Qc = reduction imp (combine data labels) f v.
Proof.
  intros R Hf HA L.
  assert (HT : combine (map (rescale a c) data) labels = map (fun r => (rescale a c (fst r), snd r)) (combine data labels)).
  { clear. revert labels. induction data as [|r d IH]; intros [|y l]; cbn; auto. now rewrite IH. }
  rewrite HT. set (T := combine data labels). set (g := fun r : row => (rescale a c (fst r), snd r)).
  assert (HL : forall r, In r T -> is_left f (a f * v + c f)%Qc (g r) = is_left f v r).
  { intros [x y] I. apply in_combine_l in I. rewrite !is_left_qle. unfold value_of, g. cbn [fst snd].
    rewrite rescale_nth by (rewrite (R x I); auto).
    destruct (qle (nth f x 0%Qc) v) eqn:Q.
    - apply qle_spec. apply affine_mono; auto. now apply qle_spec.
    - apply qle_false in Q. apply qle_false. destruct (qle_lt_dec (a f * nth f x 0 + c f)%Qc (a f * v + c f)%Qc) as [Z|Z]; auto.
      apply affine_mono in Z; auto. exfalso. qlra. }
  unfold reduction, left_part, right_part. rewrite !filter_map_comm, !map_length.
  rewrite (filter_ext_in (fun x => is_left f (a f * v + c f)%Qc (g x)) (is_left f v)) by auto.
  rewrite (filter_ext_in (fun x => negb (is_left f (a f * v + c f)%Qc (g x))) (fun r => negb (is_left f v r))) by (intros; now rewrite HL).
  unfold labels_of. rewrite !map_map. unfold g. cbn. reflexivity.
Qed.

Lemma sorted_map_affine k d l : (0 < k)%Qc -> StronglySorted Qclt l -> StronglySorted Qclt (map (fun x => k * x + d)%Qc l).
Proof.
  intros HK. induction 1 as [|x l S IH F]; cbn; constructor; auto.
  apply Forall_forall. intros y I. apply in_map_iff in I. destruct I as [z [<- I]]. rewrite Forall_forall in F. specialize (F z I). qnra.
Qed.

Lemma candidates_rescale bt B a c data f E W : rectangular W data -> f < W -> (0 < a f)%Qc ->
  bt = LINEAR \/ bt = IDENTITY ->
  candidates bt B None data f E -> candidates bt B None (map (rescale a c) data) f (map (fun x => a f * x + c f)%Qc E).
Proof.
  intros R Hf HA BT. pose proof (rescale_values a c data f W R Hf) as RV. set (k := a f) in *. set (d := c f) in *.
  destruct BT as [->| ->]; cbn; rewrite RV.
  - intros [lo [hi [[[L1 L2] [G1 G2]] D]]]. exists (k * lo + d)%Qc, (k * hi + d)%Qc. split.
    + split; (split; [apply in_map_iff; eauto|]); intros x I; apply in_map_iff in I; destruct I as [y [<- I]]; apply affine_mono; auto.
    + destruct D as [[-> ->]|[N ->]]; [left; auto|right]. split.
      * intros Q. apply N. assert (k * (lo - hi) = 0)%Qc by (replace (k * (lo - hi))%Qc with ((k * lo + d) - (k * hi + d))%Qc by ring; rewrite Q; ring).
        apply qmult_eq_0 in H. destruct H; qlra.
      * rewrite map_map. apply map_ext. intros b. ring.
  - intros [S1 I1]. split; [now apply sorted_map_affine|]. intros x. rewrite !in_map_iff. split; intros [y [Q I]]; exists y; split; auto; now apply I1.
Qed.

Lemma affine_inj k d x y : (0 < k)%Qc -> (k * x + d = k * y + d)%Qc -> x = y.
Proof. intros H Q. apply qle_antisym; apply (affine_mono k d); auto; rewrite Q; apply qle_refl. Qed.

Lemma exact_affine M c data labels mir e e' W a d out e1 :
  solvable c data labels W -> s_bin c = LINEAR \/ s_bin c = IDENTITY -> s_minmax c = None ->
  (forall f, f < W -> (0 < a f)%Qc) ->
  solve_exactly M c data labels mir e = Ok (out, e1) ->
  exists e1', solve_exactly M c (map (rescale a d) data) labels mir e' = Ok (move_split a d out, e1').
Proof.
  intros S BT MM HA H. set (data' := map (rescale a d) data).
  destruct (exact_answer c data labels W S _ _ _ _ _ H) as [E [HC [HR [HB [HQ _]]]]].
  assert (LD : length data' = length data) by apply map_length.
  assert (S' : solvable c data' labels W).
  { destruct S as [A1 A2 A3 A4 A5 A6 A7]. split; auto.
    - intros r I. apply in_map_iff in I. destruct I as [r' [<- I]]. unfold rescale. rewrite mapi_length. auto.
    - intros Z. apply (f_equal (@length _)) in Z. rewrite LD in Z. destruct data; [contradiction|discriminate].
    - now rewrite LD. }
  pose proof (sv_rect _ _ _ _ S) as R. rewrite MM in HC.
  assert (NBE : nbins c data' = nbins c data) by (unfold nbins; now rewrite LD).
  set (E' := fun f => map (fun x => a f * x + d f)%Qc (E f)).
  assert (HC' : forall f, f < W -> candidates (s_bin c) (nbins c data') (s_minmax c) data' f (E' f)).
  { intros f Hf. rewrite NBE, MM. eapply candidates_rescale; eauto. }
  assert (BE : busy_features W E' = busy_features W E).
  { apply filter_ext. intros f. unfold E'. destruct (E f); reflexivity. }
  destruct (exact_answers c data' labels W S' M mir e' E' HC') as [out' [e1' H']]; [now rewrite BE|].
  exists e1'. rewrite H'. f_equal. f_equal.
  destruct (exact_answer c data' labels W S' _ _ _ _ _ H') as [E2 [HC2 [HR2 [HB2 [HQ2 _]]]]].
  assert (EE : forall f, f < W -> E2 f = E' f) by (intros f Hf; eapply candidates_unique; eauto).
  eapply right_unique; [exact HR2| |].
  - assert (RR : forall f v, f < W -> reduction (impurity M c) (combine data' labels) f (a f * v + d f)%Qc =
                               reduction (impurity M c) (combine data labels) f v).
    { intros f v Hf. eapply reduction_rescale; eauto. apply S. }
    apply right_ext with (red := reduction (impurity M c) (combine data' labels)) (E := E'); auto.
    { intros f Hf. symmetry. now apply EE. }
    destruct out as [f v r q|q]; cbn in *.
    + destruct HR as [Hf [b [N [-> [M1 H5]]]]]. split; auto. exists b. rewrite RR by auto. split.
      { unfold E'. rewrite nth_error_map, N. reflexivity. } split; auto. split; auto.
      intros f' b' v' Hf' N'. unfold E' in N'. rewrite nth_error_map in N'. destruct (nth_error (E f') b') as [w|] eqn:Nw; [|discriminate].
      injection N' as <-. rewrite RR by auto. apply H5; auto.
    + intros f' v' Hf' I. unfold E' in I. apply in_map_iff in I. destruct I as [w [<- I]]. rewrite RR by auto. auto.
  - rewrite HQ2. assert (QQ : sres_q (move_split a d out) = sres_q out) by (destruct out; reflexivity).
    rewrite QQ, HQ, LD, (busy_ext W E2 E' EE), BE. reflexivity.
Qed.

Lemma exact_answers_iff M c data labels W mir e0 E :
  solvable c data labels W -> s_bin c = LINEAR \/ s_bin c = IDENTITY ->
  (forall f, f < W -> candidates (s_bin c) (nbins c data) (s_minmax c) data f (E f)) ->
  ((exists out e1, solve_exactly M c data labels mir e0 = Ok (out, e1)) <-> (exists f, f < W /\ E f <> [])).
Proof.
  intros S BT HC. assert (NE : forall E', busy_features W E' <> [] <-> exists f, f < W /\ E' f <> []).
  { intros E'. unfold busy_features. split.
    - intros N. destruct (filter _ _) as [|f l] eqn:Q; [contradiction|]. exists f.
      assert (I : In f (f :: l)) by now left. rewrite <- Q in I. apply filter_In in I. destruct I as [I J]. apply in_seq in I.
      split; [lia|]. destruct (E' f); [discriminate|]. discriminate.
    - intros [f [Hf N]] Z. assert (I : In f (filter (fun f => match E' f with [] => false | _ => true end) (seq 0 W))).
      { apply filter_In. split; [apply in_seq; lia|]. destruct (E' f); [contradiction|reflexivity]. }
      rewrite Z in I. destruct I. }
  split.
  - intros [out [e1 H]]. destruct (exact_answer c data labels W S _ _ _ _ _ H) as [E2 [HC2 [_ [HB _]]]].
    apply NE. erewrite busy_ext; [exact HB|]. intros f Hf. eapply candidates_unique; eauto.
  - intros HB. apply NE in HB. eapply exact_answers; eauto.
Qed.

Lemma exact_permutation M c data labels data' labels' mir e e' W out :
  solvable c data labels W -> s_bin c = LINEAR \/ s_bin c = IDENTITY ->
  length labels' = length data' -> Permutation (combine data labels) (combine data' labels') ->
  ((exists e1, solve_exactly M c data labels mir e = Ok (out, e1)) <->
   (exists e1, solve_exactly M c data' labels' mir e' = Ok (out, e1))).
Proof.
  intros S BT L P. split; intros [e1 H].
  - eapply exact_perm_one; eauto.
  - eapply exact_perm_one; [| |apply S|apply Permutation_sym; eauto|eauto]; auto. eapply solvable_perm; eauto.
Qed.

Lemma exact_linear_queries M c data labels W mir e0 out e1 :
  solvable c data labels W -> s_bin c = LINEAR -> s_minmax c = None ->
  solve_exactly M c data labels mir e0 = Ok (out, e1) ->
  exists fs, NoDup fs /\
    (forall f, In f fs <-> f < W /\ exists x y, In x (feature_values data f) /\ In y (feature_values data f) /\ x <> y) /\
    sres_q out = length data * length fs.
Proof.
  intros S BT MM H. destruct (exact_answer c data labels W S _ _ _ _ _ H) as [E [HC [_ [_ [HQ _]]]]].
  exists (busy_features W E). split; [apply NoDup_filter, seq_NoDup|]. split; auto.
  pose proof (sv_bins _ _ _ _ S) as SB. rewrite BT in SB.
  assert (HC' : forall f, f < W -> candidates LINEAR (s_nb c) None data f (E f)).
  { intros f Hf. specialize (HC f Hf). rewrite MM in HC. unfold nbins in HC. now rewrite BT in HC. }
  intros f. split.
  - intros I. assert (Hf : f < W) by (apply filter_In in I; destruct I as [I _]; apply in_seq in I; lia). split; auto.
    apply (linear_busy (s_nb c) data W E) in I; auto; try apply S. lia.
  - intros [Hf X]. apply (linear_busy (s_nb c) data W E); auto; try apply S. lia.
Qed.

Lemma exact_same_memory M c data labels W mir e0 e0' out e1 :
  solvable c data labels W -> s_bin c = LINEAR \/ s_bin c = IDENTITY ->
  solve_exactly M c data labels mir e0 = Ok (out, e1) ->
  exists e1', solve_exactly M c data labels mir e0' = Ok (out, e1').
Proof. intros S BT H. eapply exact_perm_one; eauto. apply S. Qed.

Lemma exact_reported c data labels W M mir e0 f v r q e1 : solvable c data labels W ->
  solve_exactly M c data labels mir e0 = Ok (Found f v r q, e1) ->
  r = Fin (reduction (impurity M c) (combine data labels) f v).
Proof. intros S H. destruct (exact_answer c data labels W S _ _ _ _ _ H) as [E [_ [[_ [b [_ [R _]]]] _]]]. exact R. Qed.
Lemma exact_optimal c data labels W : solvable c data labels W -> forall M mir e0 out e1,
  solve_exactly M c data labels mir e0 = Ok (out, e1) ->
  exists E, (forall f, f < W -> candidates (s_bin c) (nbins c data) (s_minmax c) data f (E f)) /\
    right_answer (reduction (impurity M c) (combine data labels)) mir W E out.
Proof. intros S M mir e0 out e1 H. destruct (exact_answer c data labels W S _ _ _ _ _ H) as [E [H1 [H2 _]]]. eauto. Qed.
Lemma exact_queries c data labels W : solvable c data labels W -> forall M mir e0 out e1,
  solve_exactly M c data labels mir e0 = Ok (out, e1) ->
  exists E, (forall f, f < W -> candidates (s_bin c) (nbins c data) (s_minmax c) data f (E f)) /\
    sres_q out = length data * length (busy_features W E).
Proof. intros S M mir e0 out e1 H. destruct (exact_answer c data labels W S _ _ _ _ _ H) as [E [H1 [_ [_ [H2 _]]]]]. eauto. Qed.
Lemma exact_usable c data labels W M mir e0 f v r q e1 : solvable c data labels W ->
  solve_exactly M c data labels mir e0 = Ok (Found f v r q, e1) ->
  f < W /\ (exists E, candidates (s_bin c) (nbins c data) (s_minmax c) data f E /\ In v E) /\
  (exists x, r = Fin x /\ (x < mir)%Qc).
Proof.
  intros S H. destruct (exact_answer c data labels W S _ _ _ _ _ H) as [E [H1 [[Hf [b [N [R [L _]]]]] _]]].
  split; auto. split; [|eauto]. exists (E f). split; auto. eapply nth_error_In; eauto.
Qed.

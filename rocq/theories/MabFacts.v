(** The bandit solver: invariants of its loop. *)
From Coq Require Import List Arith Bool ZArith QArith Qcanon Lia Permutation Sorted.
From Verif Require Import Base Num Rng Histogram Utils Criteria Solvers Spec NumFacts ListFacts HistFacts HistAdd CritFacts ReductionFacts MakeHist SampleFacts HistProps HistProps2 ExactFacts ExactTotal DrawFacts.
Import ListNotations.
Local Open Scope nat_scope.

(** ** Emptied histograms *)
Lemma empty_samples_spec ic cl f T h h' : state_for ic cl f T h -> empty_samples h = Ok h' ->
  hist_for ic cl f h' /\ h_edges h' = h_edges h /\ h_nb h' = h_nb h.
Proof.
  intros [F1 F2 F3 F4] H. unfold empty_samples in H. destruct (h_edges h) as [e|] eqn:E; [|discriminate].
  destruct F4 as [A [L F4]]. destruct (h_class h) eqn:C; injection H as <-.
  - split; [|split; [cbn; congruence|reflexivity]].
    destruct F4 as [_ [_ [_ CP]]].
    constructor; cbn; auto; try congruence.
    + unfold fresh. cbn. rewrite E, C. rewrite CP. auto.
    + intros e' E'. rewrite E in E'. injection E' as <-. exact A.
  - split; [|split; [cbn; congruence|reflexivity]].
    constructor; cbn; auto; try congruence.
    + unfold fresh. cbn. rewrite E, C. auto.
    + intros e' E'. rewrite E in E'. injection E' as <-. exact A.
Qed.
Lemma empty_samples_total h : h_edges h <> None -> exists h', empty_samples h = Ok h'.
Proof. intros H. unfold empty_samples. destruct (h_edges h); [|contradiction]. destruct (h_class h); eauto. Qed.

Lemma empty_histograms_spec ic cl acc : forall hs hs', empty_histograms hs acc = Ok hs' ->
  (forall f h, nth_error hs f = Some h -> exists T, state_for ic cl f T h) ->
  (ic = true -> NoDup cl) ->
  length hs' = length hs /\
  (forall f, ~ In f (map fst acc) -> nth_error hs' f = nth_error hs f) /\
  (forall f, In f (map fst acc) -> exists h h', nth_error hs f = Some h /\ nth_error hs' f = Some h' /\
     hist_for ic cl f h' /\ h_edges h' = h_edges h /\ h_nb h' = h_nb h).
Proof.
  unfold empty_histograms. induction acc as [|[f b] acc IH]; intros hs hs' H ST ND; cbn in H.
  - injection H as <-. split; auto. split; auto. intros f [].
  - apply rbind_ok in H. destruct H as [hs1 [E H]].
    apply rbind_ok in E. destruct E as [h [E1 E]]. apply rbind_ok in E. destruct E as [h1 [E2 E]]. injection E as <-.
    apply nth_res_ok in E1. destruct (ST f h E1) as [T S0]. destruct (empty_samples_spec _ _ _ _ _ _ S0 E2) as [HF [HE HN]].
    destruct (IH _ _ H) as [A1 [A2 A3]]; auto.
    { intros f' h' E'. rewrite set_nth_nth in E'. destruct (f' =? f) eqn:Q; [|eapply ST; eauto].
      apply Nat.eqb_eq in Q. subst f'. rewrite E1 in E'. cbn in E'. injection E' as <-. exists []. now apply hist_for_state. }
    rewrite set_nth_length in A1. split; auto. cbn [map fst]. split.
    + intros f' N. rewrite A2 by (intro; apply N; now right). rewrite set_nth_nth. destruct (f' =? f) eqn:Q; auto.
      apply Nat.eqb_eq in Q. subst. destruct N. now left.
    + intros f' I. destruct (in_dec Nat.eq_dec f' (map fst acc)) as [J|J].
      * destruct (A3 f' J) as [h2 [h3 [B1 [B2 [B3 [B4 B5]]]]]]. rewrite set_nth_nth in B1. destruct (f' =? f) eqn:Q.
        -- apply Nat.eqb_eq in Q. subst f'. rewrite E1 in B1. cbn in B1. injection B1 as <-. exists h, h3. repeat split; auto; try congruence; apply B3.
        -- exists h2, h3. auto.
      * destruct I as [<-|I]; [|contradiction]. exists h, h1. split; auto. split; auto.
        rewrite A2 by auto. rewrite set_nth_nth, Nat.eqb_refl, E1. reflexivity.
Qed.
Lemma empty_histograms_total acc : forall hs,
  (forall f b, In (f, b) acc -> exists h, nth_error hs f = Some h /\ h_edges h <> None) ->
  exists hs', empty_histograms hs acc = Ok hs'.
Proof.
  unfold empty_histograms. induction acc as [|[f b] acc IH]; intros hs H; cbn; eauto.
  destruct (H f b (or_introl eq_refl)) as [h [E NE]]. pose proof (proj2 (nth_res_ok hs f h) E) as E'. rewrite E'. cbn [rbind].
  destruct (empty_samples_total h NE) as [h' Eh]. rewrite Eh. cbn [rbind]. apply IH.
  intros f' b' I. destruct (H f' b' (or_intror I)) as [h2 [E2 NE2]]. rewrite set_nth_nth. destruct (f' =? f) eqn:Q; [|eauto].
  apply Nat.eqb_eq in Q. subst f'. rewrite E. cbn. exists h'. split; auto.
  unfold empty_samples in Eh. destruct (h_edges h) eqn:Z; [|discriminate]. destruct (h_class h); injection Eh as <-; cbn; congruence.
Qed.

Section Loop.
Context (M : math) (k : mcfg) (hs0 : list hist) (ic : bool) (cl : list Qc).
Notation F := (mc_F k). Notation B := (mc_B k). Notation N := (mc_N k).
Notation data := (mc_data k). Notation labels := (mc_labels k). Notation m := (mc_measure k).

Record static : Prop := {
  sc_N : N = length data;
  sc_labels : length labels = length data;
  sc_pos : 0 < N;
  sc_len : length hs0 = F;
  sc_hist : forall f h, nth_error hs0 f = Some h -> hist_for ic cl f h;
  sc_classes : cl = if ic then unique labels else [];
  sc_nb : forall f h, nth_error hs0 f = Some h -> h_nb h <= B;
  sc_batch : 1 <= mc_batch k
}.
Context (SC : static).

Definition is_arm (f b : nat) : Prop := exists h, nth_error hs0 f = Some h /\ b < h_nb h.
Lemma arm_range f b : is_arm f b -> f < F /\ b < B.
Proof.
  intros [h [E H]]. split; [rewrite <- (sc_len SC); apply nth_error_Some; congruence|]. pose proof (sc_nb SC _ _ E). lia.
Qed.
Lemma arm_edges f b : is_arm f b -> exists h, nth_error hs0 f = Some h /\ h_edges h <> None.
Proof.
  intros [h [E H]]. exists h. split; auto. destruct (sc_hist SC _ _ E) as [_ _ _ [_ Fr] _]. intros Z. rewrite Z in Fr. lia.
Qed.
Lemma arm_edge_at f b : is_arm f b <-> exists v, edge_at hs0 f b v.
Proof.
  split.
  - intros [h [E H]]. destruct (sc_hist SC _ _ E) as [_ _ _ Fr _]. eapply edge_at_nb; eauto.
  - intros [v [h [e [H1 H2]]]]. exists h. split; auto. destruct (sc_hist SC _ _ H1) as [_ _ _ Fr _].
    apply (edge_at_lt hs0 f b v h); auto. exists h, e. auto.
Qed.
Lemma cl_nodup : ic = true -> NoDup cl.
Proof. intros H. rewrite (sc_classes SC), H. apply unique_nodup. Qed.
Lemma rows_nonempty I : I <> [] -> rows_at data labels I <> [].
Proof. destruct I; [contradiction|discriminate]. Qed.
Lemma rows_labels I : ic = true -> (forall i, In i I -> i < N) -> incl (labels_of (rows_at data labels I)) cl.
Proof.
  intros H V y Hy. rewrite (sc_classes SC), H. apply unique_in. unfold labels_of, rows_at in Hy. rewrite map_map in Hy.
  apply in_map_iff in Hy. destruct Hy as [i [<- Hi]]. apply V in Hi. rewrite (sc_N SC) in Hi.
  pose proof (sc_labels SC). rewrite combine_nth by auto. cbn. apply nth_In. lia.
Qed.

(** Histograms have received some rows; without replacement no row twice. *)
Definition hists_ok (hists : list hist) (pop : option (list nat)) : Prop :=
  length hists = F /\
  forall f h0, nth_error hs0 f = Some h0 -> exists h I, nth_error hists f = Some h /\
    h_edges h = h_edges h0 /\ h_nb h = h_nb h0 /\ state_for ic cl f (rows_at data labels I) h /\
    (forall i, In i I -> i < N) /\ (forall P, pop = Some P -> NoDup (I ++ P)).

Definition pop_ok (pop : option (list nat)) : Prop :=
  match pop with
  | None => mc_repl k = true
  | Some P => mc_repl k = false /\ NoDup P /\ forall i, In i P -> i < N
  end.

(** The estimate x of an arm is the impurity change on some rows. *)
Definition est_val (f b : nat) (x : Qc) : Prop :=
  exists I, I <> [] /\ (forall i, In i I -> i < N) /\ (mc_repl k = false -> NoDup I) /\
    (ic = true -> forall v, edge_at hs0 f b v -> x = reduction (class_imp M m) (rows_at data labels I) f v).

Lemma hists_fresh : forall pop, pop_ok pop -> hists_ok hs0 pop.
Proof.
  intros pop PO. split; [apply SC|]. intros f h0 E. exists h0, []. split; auto. split; auto. split; auto. split.
  - apply hist_for_state; [eapply sc_hist; eauto|apply cl_nodup].
  - split; [intros i []|]. intros P ->. cbn. apply PO.
Qed.

Lemma hists_state hists pop : hists_ok hists pop -> forall f h, nth_error hists f = Some h -> exists T, state_for ic cl f T h.
Proof.
  intros [L H] f h E. destruct (nth_error hs0 f) as [h0|] eqn:E0.
  - destruct (H f h0 E0) as [h' [I [E' [_ [_ [S _]]]]]]. rewrite E in E'. injection E' as <-. eauto.
  - apply nth_error_None in E0. assert (f < length hists) by (apply nth_error_Some; congruence). rewrite (sc_len SC) in E0. lia.
Qed.

Definition drawn (pop : option (list nat)) (batch : nat) : nat :=
  match pop with None => Nat.min N batch | Some P => Nat.min (length P) batch end.
Definition left_in (pop : option (list nat)) : nat := match pop with None => 0 | Some P => length P end.

Lemma nodup_app_l {A} (l1 l2 : list A) : NoDup (l1 ++ l2) -> NoDup l1.
Proof. intros H. induction l1; constructor; inversion H; subst; auto. intro. apply H2. apply in_or_app. auto. Qed.
Lemma nodup_app_r {A} (l1 l2 : list A) : NoDup (l1 ++ l2) -> NoDup l2.
Proof. induction l1; cbn; auto. intros H. inversion H; auto. Qed.

Lemma round_ok hists pop acc batch t r : hists_ok hists pop -> pop_ok pop -> by_feature acc ->
  (forall f b, In (f, b) acc -> is_arm f b) -> 1 <= batch -> pop <> Some [] ->
  sample_targets M m data labels acc hists batch pop t = Ok r ->
  hists_ok (sr_hists r) (sr_pop r) /\ pop_ok (sr_pop r) /\
  sr_q r = length (f2bin acc) * drawn pop batch /\
  left_in (sr_pop r) + (if mc_repl k then 0 else drawn pop batch) = left_in pop /\
  exists irs, sr_ir r = map Fin irs /\ length irs = length acc /\ length (sr_cb r) = length acc /\
    forall i f b, nth_error acc i = Some (f, b) -> exists x, nth_error irs i = Some x /\ est_val f b x.
Proof.
  intros [HL HO] PO BF AR HB NP H. pose proof (sc_N SC) as EN. pose proof (sc_pos SC) as PN.
  destruct (sample_targets_spec _ _ _ _ _ _ _ _ _ _ H BF (sc_labels SC))
    as [idcs [ps [X [Y [ED [VI [EX [EY [EC [EQ [EL [EO [EI [irs [vs [EIR [ECB [L1 [L2 SCO]]]]]]]]]]]]]]]]]]].
  assert (D : length idcs = drawn pop batch /\ pop_ok (sr_pop r) /\
     left_in (sr_pop r) + (if mc_repl k then 0 else drawn pop batch) = left_in pop /\
     (forall J, (forall P, pop = Some P -> NoDup (J ++ P)) -> forall P, sr_pop r = Some P -> NoDup (J ++ P) /\ NoDup ((J ++ idcs) ++ P))).
  { destruct pop as [P|].
    - destruct (draw_rows_some _ _ _ _ _ _ _ _ ED) as [_ [rest [ER [PP LI]]]]. rewrite ER. cbn in *.
      destruct PO as [PR [PN' PV]]. rewrite PR. split; auto. split; [|split].
      + split; auto. split.
        * apply (nodup_app_r idcs). eapply Permutation_NoDup; eauto.
        * intros i I. apply PV. eapply Permutation_in; [apply Permutation_sym; exact PP|]. apply in_or_app. auto.
      + apply Permutation_length in PP. rewrite app_length in PP. lia.
      + intros J HJ P' Q. injection Q as <-. specialize (HJ P eq_refl).
        assert (G : NoDup ((J ++ idcs) ++ rest)).
        { rewrite <- app_assoc. eapply Permutation_NoDup; [|exact HJ]. now apply Permutation_app_head. }
        split; auto. apply (Permutation_NoDup (l := (J ++ rest) ++ idcs)) in G || idtac.
        assert (G2 : NoDup ((J ++ rest) ++ idcs)).
        { eapply Permutation_NoDup; [|exact G]. rewrite <- !app_assoc. apply Permutation_app_head, Permutation_app_comm. }
        now apply nodup_app_l in G2.
    - destruct (draw_rows_none _ _ _ _ _ _ _ ED) as [ER [_ [LI _]]]. rewrite ER. cbn in *. rewrite PO. rewrite EN. repeat split; auto; discriminate. }
  destruct D as [LI [PO' [LE ND]]].
  split; [|split; [auto|split; [now rewrite EQ, LI|split; [auto|]]]].
  - split; [congruence|]. intros f h0 E0. destruct (HO f h0 E0) as [h [I [E1 [E2 [E3 [E4 [E5 E6]]]]]]].
    destruct (in_dec Nat.eq_dec f (map fst acc)) as [J|J].
    + destruct (EI f J) as [h1 [h2 [K1 [K2 K3]]]]. rewrite E1 in K1. injection K1 as <-.
      destruct (hist_add_state _ _ _ _ _ _ _ _ E4 K2) as [_ [S1 [S2 [S3 _]]]].
      exists h2, (I ++ idcs). split; auto. split; [congruence|]. split; [congruence|]. split.
      * unfold rows_at in *. rewrite map_app, <- EC. exact S1.
      * split. { intros i Q. apply in_app_or in Q. destruct Q; auto. rewrite EN. auto. }
        intros P Q. now apply (ND I E6).
    + exists h, I. rewrite (EO f J). split; auto. split; auto. split; auto. split; auto. split; auto.
      intros P Q. now apply (ND I E6).
  - exists irs. split; auto. split; auto. split; [now rewrite ECB, map_length|].
    intros i f b Hi. destruct (SCO i f b Hi) as [ir [v [Q1 [Q2 [h' [bs [rv [j [Q3 [Q4 [Q5 [Q6 Q7]]]]]]]]]]]].
    exists ir. split; auto.
    assert (Iacc : In (f, b) acc) by (eapply nth_error_In; eauto).
    assert (J : In f (map fst acc)) by (apply in_map_iff; exists (f, b); auto).
    destruct (arm_edges f b (AR _ _ Iacc)) as [h0 [E0 NE0]].
    destruct (HO f h0 E0) as [h [I [E1 [E2 [E3 [E4 [E5 E6]]]]]]].
    destruct (EI f J) as [h1 [h2 [K1 [K2 K3]]]]. rewrite E1 in K1. injection K1 as <-. rewrite Q3 in K3. injection K3 as <-.
    destruct (hist_add_state _ _ _ _ _ _ _ _ E4 K2) as [_ [S1 [S2 [S3 _]]]].
    exists (I ++ idcs). split; [|split; [|split]].
    + assert (0 < length idcs).
      { rewrite LI. unfold drawn. destruct pop as [P|]; [|lia]. destruct P as [|p P]; [contradiction|]. change (length (p :: P)) with (S (length P)). lia. }
      destruct idcs; [cbn in *; lia|]. destruct I; discriminate.
    + intros z Q. apply in_app_or in Q. destruct Q; auto. rewrite EN. auto.
    + intros RF. destruct pop as [P|]; [|cbn in PO; congruence].
      destruct (sr_pop r) as [P'|] eqn:EP; [|cbn in PO'; congruence]. destruct (ND I E6 P' eq_refl) as [_ G]. now apply nodup_app_l in G.
    + intros IC v' EA. rewrite IC in S1. unfold rows_at in *. rewrite map_app, <- EC.
      destruct (state_scores _ _ _ _ _ _ _ _ _ _ _ _ S1 Q4 Q5 Q6) as [e [edges [W1 [W2 ->]]]].
      f_equal. destruct EA as [h9 [e9 [Z1 [Z2 Z3]]]]. rewrite E0 in Z1. injection Z1 as <-. congruence.
Qed.

Lemma arm_dec f b : {is_arm f b} + {~ is_arm f b}.
Proof.
  unfold is_arm. destruct (nth_error hs0 f) as [h|].
  - destruct (lt_dec b (h_nb h)); [left; eauto|right]. intros [h' [E H]]. injection E as <-. contradiction.
  - right. intros [h [E _]]. discriminate.
Qed.

(** The impurity change on all rows. *)
Definition true_change (f : nat) (v : Qc) : Qc :=
  reduction (if ic then class_imp M m else regr_imp m) (combine data labels) f v.

Lemma rows_all : rows_at data labels (arange N) = combine data labels.
Proof.
  unfold rows_at. rewrite (sc_N SC). pose proof (sc_labels SC) as L.
  apply list_ext. intros i. rewrite nth_error_map. unfold arange.
  assert (LC : length (combine data labels) = length data) by (rewrite combine_length; lia).
  destruct (le_lt_dec (length data) i).
  - rewrite (proj2 (nth_error_None (seq 0 (length data)) i)) by now rewrite seq_length. cbn.
    symmetry. apply nth_error_None. lia.
  - rewrite (nth_error_nth' (seq 0 (length data)) 0) by now rewrite seq_length. rewrite seq_nth by auto. cbn.
    symmetry. apply nth_error_nth'. lia.
Qed.

Lemma true_est f b v : edge_at hs0 f b v -> est_val f b (true_change f v).
Proof.
  intros E. exists (arange N). split; [|split; [|split]].
  - intros Z. apply (f_equal (@length _)) in Z. rewrite arange_length in Z. pose proof (sc_pos SC). cbn in Z. lia.
  - intros i. apply arange_in.
  - intros _. apply arange_nodup.
  - intros IC v' E'. rewrite (edge_at_fun _ _ _ _ _ E' E), rows_all. unfold true_change. now rewrite IC.
Qed.

(** Scoring all the rows on emptied histograms. *)
Lemma full_round hists acc batch pop t r : by_feature acc -> (forall f b, In (f, b) acc -> is_arm f b) ->
  N <= batch -> (pop = None \/ pop = Some (arange N)) ->
  (forall f h0, nth_error hs0 f = Some h0 -> In f (map fst acc) ->
     exists h, nth_error hists f = Some h /\ hist_for ic cl f h /\ h_edges h = h_edges h0) ->
  sample_targets M m data labels acc hists batch pop t = Ok r ->
  exists irs, sr_ir r = map Fin irs /\ length irs = length acc /\
    forall i f b v, nth_error acc i = Some (f, b) -> edge_at hs0 f b v -> nth_error irs i = Some (true_change f v).
Proof.
  intros BF AR NB PP FR H. pose proof (sc_N SC) as EN. pose proof (sc_pos SC) as PN.
  destruct (sample_targets_spec _ _ _ _ _ _ _ _ _ _ H BF (sc_labels SC))
    as [idcs [ps [X [Y [ED [VI [EX [EY [EC [EQ [EL [EO [EI [irs [vs [EIR [ECB [L1 [L2 SCO]]]]]]]]]]]]]]]]]]].
  assert (AL : idcs = arange (length data) /\ ps = Some (length data)).
  { destruct PP as [->| ->].
    - destruct (draw_rows_none _ _ _ _ _ _ _ ED) as [_ [_ [_ [K _]]]]. apply K. lia.
    - rewrite EN in ED. destruct (draw_rows_all (length data) batch t) as [rest [E _]]; [lia|]. rewrite E in ED. injection ED as <- <- _ _. auto. }
  destruct AL as [-> ->]. rewrite take_idx_all in EX. injection EX as <-.
  rewrite <- (sc_labels SC), take_idx_all in EY. injection EY as <-.
  exists irs. split; auto. split; auto. intros i f b v Hi EA.
  destruct (SCO i f b Hi) as [ir [vv [Q1 [Q2 [h' [bs [rv [j [Q3 [Q4 [Q5 [Q6 Q7]]]]]]]]]]]]. rewrite Q1. f_equal.
  assert (Iacc : In (f, b) acc) by (eapply nth_error_In; eauto).
  assert (J : In f (map fst acc)) by (apply in_map_iff; exists (f, b); auto).
  destruct (arm_edges f b (AR _ _ Iacc)) as [h0 [E0 NE0]].
  destruct (FR f h0 E0 J) as [h [E1 [E2 E3]]].
  destruct (EI f J) as [h1 [h2 [K1 [K2 K3]]]]. rewrite E1 in K1. injection K1 as <-. rewrite Q3 in K3. injection K3 as <-.
  set (c := {| s_class := ic; s_measure := m; s_bin := LINEAR; s_nb := 0; s_minmax := None; s_dd := None |}).
  assert (NE : data <> []) by (destruct data; [cbn in EN; lia|discriminate]).
  pose proof (full_step_ok M c data labels hists (sc_labels SC) NE) as SO. cbn [s_class s_measure c] in SO.
  assert (PF : first_P ic (if ic then unique labels else []) hists f h) by (split; auto; rewrite <- (sc_classes SC); auto).
  destruct (SO f h h' bs rv PF K2 Q4) as [_ [_ [_ R]]]. destruct (R j b ir Q5 Q6) as [v' [EV ->]].
  unfold true_change, imp_of. cbn [s_class s_measure c].
  assert (v' = v); [|subst; reflexivity].
  destruct EV as [h4 [e4 [Z1 [Z2 Z3]]]]. rewrite E1 in Z1. injection Z1 as <-.
  destruct EA as [h5 [e5 [Z4 [Z5 Z6]]]]. rewrite E0 in Z4. injection Z4 as <-. rewrite E3, Z5 in Z2. injection Z2 as <-. congruence.
Qed.

(** Features with at least one arm. *)
Definition busy : nat := length (filter (fun f => match nth_error hs0 f with Some h => 0 <? h_nb h | None => false end) (seq 0 F)).
Lemma f2bin_busy acc : by_feature acc -> (forall f b, In (f, b) acc -> is_arm f b) -> length (f2bin acc) <= busy.
Proof.
  intros BF AR. destruct (f2bin_spec acc BF) as [FL [NDK NE]]. unfold busy.
  rewrite <- (map_length fst). apply NoDup_incl_length; auto. intros f I. apply (f2bin_keys acc f BF) in I.
  apply in_map_iff in I. destruct I as [[f' b] [<- I]]. pose proof (AR _ _ I) as A. destruct (arm_range _ _ A). destruct A as [h [E L]].
  apply filter_In. split; [apply in_seq; cbn [fst]; lia|]. cbn [fst]. rewrite E. apply Nat.ltb_lt. lia.
Qed.
Lemma f2bin_all acc : by_feature acc -> (forall f b, In (f, b) acc <-> is_arm f b) -> length (f2bin acc) = busy.
Proof.
  intros BF AR. destruct (f2bin_spec acc BF) as [FL [NDK NE]]. unfold busy.
  rewrite <- (map_length fst). apply Permutation_length, NoDup_Permutation; auto. { apply NoDup_filter, seq_NoDup. }
  intros f. rewrite (f2bin_keys acc f BF), filter_In, in_seq, in_map_iff. split.
  - intros [[f' b] [<- I]]. apply AR in I. destruct (arm_range _ _ I). destruct I as [h [E L]]. split; [cbn [fst]; lia|].
    cbn [fst]. rewrite E. apply Nat.ltb_lt. lia.
  - intros [_ H]. destruct (nth_error hs0 f) as [h|] eqn:E; [|discriminate]. apply Nat.ltb_lt in H. exists (f, 0). split; auto.
    apply AR. exists h. auto.
Qed.
End Loop.

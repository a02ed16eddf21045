(** What each node of a fitted tree records: its features, the value of its best split and the
    number of queries. *)
From Coq Require Import List Arith Bool ZArith QArith Qcanon Lia Permutation Sorted.
From Verif Require Import Base Num Rng Histogram Utils Criteria Solvers Tree Spec SolverSpec TreeSpec NumFacts ListFacts HistFacts HistAdd CritFacts ReductionFacts ExactProps DrawFacts UtilsFacts TreeFacts CountFacts TreeThms TreeTotal TreeMore BestFirst.
Import ListNotations.
Local Open Scope nat_scope.

Lemma fitted_features P M c a e t : built P M c a e t -> train_rows a <> [] -> NoDup (train_feats a) ->
  forall id nd, node_at t id nd -> subsampled c a (nd_feats nd).
Proof.
  intros HB NE ND id nd A. pose proof (built_tinv P M c a e t HB NE) as T. pose proof (ti_node _ _ _ _ _ _ _ _ T _ _ A) as N.
  destruct (no_choice _ _ _ _ _ _ _ N) as (g & g' & E). exact (choose_features_spec _ _ _ _ _ ND E).
Qed.

Lemma several_spec l : several l = true <-> exists x y, In x l /\ In y l /\ x <> y.
Proof.
  destruct l as [|x r]; cbn; [split; [discriminate|intros (u & v & [] & _)]|]. rewrite negb_true_iff. split.
  - intros H. assert (G : exists y, In y r /\ x <> y).
    { induction r as [|y r IH]; [discriminate H|]. cbn in H. destruct (qeq x y) eqn:E.
      - cbn in H. destruct (IH H) as [w [I1 I2]]. exists w. split; auto. now right.
      - exists y. split; [now left|]. intros ->. rewrite (proj2 (qeq_spec y y) eq_refl) in E. discriminate E. }
    destruct G as [y [I NE]]. exists x, y. auto.
  - intros (u & v & Iu & Iv & NE). destruct (forallb (qeq x) r) eqn:F; auto. exfalso. apply NE. rewrite forallb_forall in F.
    assert (G : forall w, In w (x :: r) -> w = x) by (intros w [<-|I]; auto; symmetry; apply qeq_spec; auto).
    rewrite (G u Iu), (G v Iv). reflexivity.
Qed.

Lemma filter_positions {A} (p : nat -> bool) (q : A -> bool) : forall l k, (forall f s, nth_error l f = Some s -> p (k + f) = q s) ->
  length (filter p (seq k (length l))) = length (filter q l).
Proof.
  induction l as [|s l IH]; intros k H; cbn; auto. pose proof (H 0 s eq_refl) as H0. rewrite Nat.add_0_r in H0. rewrite H0.
  assert (G : length (filter p (seq (S k) (length l))) = length (filter q l)) by (apply IH; intros f s' E; rewrite <- (H (S f) s' E); f_equal; lia).
  destruct (q s); cbn; congruence.
Qed.
Lemma sum_pick (g : node -> nat) (p : node -> bool) : forall ns k, (forall nd, In nd ns -> p nd = false -> g nd = 0) ->
  list_sum (map g ns) = list_sum (map (fun id => match nth_error ns (id - k) with Some nd => g nd | None => 0 end)
    (filter (fun id => match nth_error ns (id - k) with Some nd => p nd | None => false end) (seq k (length ns)))).
Proof.
  induction ns as [|nd ns IH]; intros k H; auto. cbn [length seq filter]. rewrite Nat.sub_diag. cbn [nth_error map].
  change (list_sum (g nd :: map g ns)) with (g nd + list_sum (map g ns)). rewrite (IH (S k)) by (intros x I; apply H; now right).
  assert (Q : forall id, In id (seq (S k) (length ns)) -> nth_error (nd :: ns) (id - k) = nth_error ns (id - S k)).
  { intros id I. apply in_seq in I. destruct (id - k) as [|j] eqn:Z; [lia|]. replace (id - S k) with j by lia. reflexivity. }
  assert (FE : filter (fun id => match nth_error ns (id - S k) with Some nd => p nd | None => false end) (seq (S k) (length ns)) =
               filter (fun id => match nth_error (nd :: ns) (id - k) with Some nd => p nd | None => false end) (seq (S k) (length ns))).
  { apply filter_ext_in. intros id I. now rewrite Q. }
  rewrite FE. match goal with |- _ + list_sum (map ?h1 ?l) = list_sum (map ?h2 _) => assert (ME : map h1 l = map h2 l) end.
  { apply map_ext_in. intros id I. apply filter_In in I. destruct I as [I _]. now rewrite Q. }
  rewrite ME. destruct (p nd) eqn:E; [cbn [map]; rewrite Nat.sub_diag; reflexivity|]. rewrite (H nd (or_introl eq_refl) E). reflexivity.
Qed.

Section Value.
Context (P : prng) (M : math) (c : tcfg) (a : targs) (e : env) (t : tree) (W : nat).
Context (TR : trainable c a W) (HB : built P M c a e t).
Notation D := (ta_data a).
Notation L := (ta_labels a).
Notation nok := (node_ok M c D L (train_feats a) (train_rows a)).

(** *** C119 *)
Lemma fitted_value id nd : tc_solver c = EXACT -> bins_ok c -> node_at t id nd -> nd_computed nd = true ->
  below_depth c (nd_depth nd) /\ tc_min_split c < length (node_rows t id) /\ varied (labels_at L (node_rows t id)) /\
  exists E, (forall f' s', nth_error (nd_feats nd) f' = Some s' -> thresholds c a (node_rows t id) s' (E f')) /\
  ((exists s v f, nd_sf nd = Some s /\ nd_sv nd = Some v /\ nth_error (nd_feats nd) f = Some s /\ In v (E f) /\
     nd_red nd = Some (Fin (split_change M c a (node_rows t id) s v * (rat (length (node_rows t id)) / rat (length (train_rows a))))%Qc) /\
     (split_change M c a (node_rows t id) s v < 0)%Qc /\
     (forall f' s' v', nth_error (nd_feats nd) f' = Some s' -> In v' (E f') ->
       (split_change M c a (node_rows t id) s v <= split_change M c a (node_rows t id) s' v')%Qc)) \/
   (nd_sf nd = None /\ nd_red nd = None /\
     forall f' s' v', nth_error (nd_feats nd) f' = Some s' -> In v' (E f') -> (0 <= split_change M c a (node_rows t id) s' v')%Qc)).
Proof.
  intros SV BO A CP. pose proof (built_tinv P M c a e t HB (tr_rows _ _ _ TR)) as T. rewrite (rows_of t id nd A).
  pose proof (ti_node _ _ _ _ _ _ _ _ T _ _ A) as N. pose proof (no_elig _ _ _ _ _ _ _ N CP) as EG.
  split; [apply EG|]. split; [apply EG|]. split; [apply EG|].
  destruct (nd_sf nd) as [s|] eqn:SF.
  - destruct (no_solved _ _ _ _ _ _ _ N s SF) as (f & v & x & PF & SV' & RX & SS).
    destruct SS as (nd1 & b & e3 & r0 & q & bins & e' & H1 & H2 & H3 & H4 & H5 & H6 & H7 & H8).
    destruct (node_answer M c a W TR nd nd1 b e3 _ bins e' SV BO N (built_dd P M c a e t W TR HB _ _ A) EG (conj H2 (conj H3 (conj H4 H8))) H1) as [E [HT [s' [Es [Iv [Er [LT OPT]]]]]]].
    assert (s' = s) by congruence. subst s'. exists E. split; auto. left. exists s, v, f. ands; auto.
    rewrite RX, H6, Er, (no_prop _ _ _ _ _ _ _ N). reflexivity.
  - destruct (no_failed _ _ _ _ _ _ _ N CP SF) as (nd1 & b & e3 & q & bins & e' & H1 & H2 & H3 & H4 & H5 & H6).
    destruct (node_answer M c a W TR nd nd1 b e3 _ bins e' SV BO N (built_dd P M c a e t W TR HB _ _ A) EG (conj H2 (conj H3 (conj H4 H6))) H1) as [E [HT RA]].
    exists E. split; auto. right. ands; auto. apply (no_nosplit _ _ _ _ _ _ _ N SF).
Qed.

(** *** C120 *)
Lemma threshold_scanned I s E : bins_ok c -> varied (labels_at L I) ->
  thresholds c a I s E -> (match tc_minmax c with None => True | Some (mn, mx) => s < length mn /\ s < length mx end) ->
  (match E with [] => false | _ => true end) = scanned c a I s.
Proof.
  intros BO VAR H MM.
  assert (NI : 2 <= length I).
  { destruct VAR as [x [y [I1 [I2 NE]]]]. unfold labels_at in *. destruct I as [|i [|j l]]; cbn in *; try tauto; try lia. destruct I1 as [<-|[]], I2 as [<-|[]]. contradiction. }
  assert (LG : 1 <= Nat.log2 (length I)) by (change 1 with (Nat.log2 2); now apply Nat.log2_le_mono).
  unfold thresholds, scanned, bins_ok in *. destruct (tc_bin c); try contradiction; cbn [candidates] in H.
  - destruct H as (lo & hi & RG & DJ).
    assert (NB : 2 <= (if tc_log_split c then Nat.log2 (length I) + 1 else tc_nb c)) by (destruct (tc_log_split c); [lia|destruct BO; [discriminate|auto]]).
    assert (EB : (match E with [] => false | _ => true end) = negb (qeq lo hi)).
    { destruct DJ as [[-> ->]|[NQ ->]]; [now rewrite (proj2 (qeq_spec hi hi) eq_refl)|]. rewrite (proj2 (NumFacts.qeq_false lo hi) NQ).
      destruct (if tc_log_split c then _ else _) eqn:Z; [lia|reflexivity]. }
    rewrite EB. destruct (tc_minmax c) as [[mn mx]|]; cbn [range_of] in RG.
    + destruct RG as [R1 R2]. now rewrite (nth_error_nth _ _ 0%Qc R1), (nth_error_nth _ _ 0%Qc R2).
    + destruct RG as [[L1 L2] [G1 G2]]. apply eq_true_iff_eq. rewrite several_spec, negb_true_iff. split.
      * intros Q. exists lo, hi. apply NumFacts.qeq_false in Q. auto.
      * intros (x & y & Ix & Iy & NQ). apply NumFacts.qeq_false. intros ->. apply NQ. apply Qcle_antisym; eapply Qcle_trans; eauto.
  - destruct H as [_ H]. destruct I as [|i I]; [cbn in NI; lia|]. destruct E as [|x E]; auto. exfalso. apply (proj2 (H (nth s (nth i D []) 0%Qc))). cbn. now left.
  - destruct H as (lo & hi & _ & _ & LE & _). destruct E; auto. cbn in LE. destruct (tc_log_split c); [lia|]. destruct BO; [discriminate|lia].
Qed.

Lemma node_queries id nd : tc_solver c = EXACT -> bins_ok c -> node_at t id nd -> nd_computed nd = true ->
  nd_queries nd = length (nd_idcs nd) * length (filter (scanned c a (nd_idcs nd)) (nd_feats nd)).
Proof.
  intros SV BO A CP. pose proof (built_tinv P M c a e t HB (tr_rows _ _ _ TR)) as T.
  pose proof (ti_node _ _ _ _ _ _ _ _ T _ _ A) as N. pose proof (no_elig _ _ _ _ _ _ _ N CP) as EG.
  assert (X : exists nd1 b e3 out bins e', node_solve M c nd1 b e3 = Ok (out, bins, e') /\ posed c D L nd nd1 /\ sres_q out = nd_queries nd).
  { destruct (nd_sf nd) as [s|] eqn:SF.
    - destruct (no_solved _ _ _ _ _ _ _ N s SF) as (f & v & x & PF & SV' & RX & nd1 & b & e3 & r0 & q & bins & e' & H1 & H2 & H3 & H4 & H5 & H6 & H7 & H8).
      exists nd1, b, e3, (Found f v r0 q), bins, e'. split; auto. split; [unfold posed; auto|]. now cbn.
    - destruct (no_failed _ _ _ _ _ _ _ N CP SF) as (nd1 & b & e3 & q & bins & e' & H1 & H2 & H3 & H4 & H5 & H6).
      exists nd1, b, e3, (NoSplit q), bins, e'. split; auto. split; [unfold posed; auto|]. now cbn. }
  destruct X as (nd1 & b & e3 & out & bins & e' & H & PO & <-).
  rewrite (solve_exact_eq M c a nd nd1 b e3 N PO SV) in H. apply rbind_ok in H. destruct H as [[out' e1'] [H1 H2]]. cbn [fst snd] in H2.
  assert (EO : out' = out) by congruence. subst out'. clear H2.
  pose proof (node_solvable M c a W TR nd (node_bins c nd) (tc_crit c) N (built_dd P M c a e t W TR HB _ _ A) (or_introl eq_refl) (bins_from_ok c a nd BO EG)) as S.
  destruct (exact_answer _ _ _ _ S _ _ _ _ _ H1) as [E [HC [_ [_ [HQ _]]]]]. rewrite HQ. f_equal; [unfold node_data; apply map_length|].
  unfold busy_features. apply filter_positions. intros f s Es. cbn [Nat.add]. apply threshold_scanned; auto; [apply EG| |].
  - apply (node_thresholds M c a nd f s (E f) N Es). apply HC. apply nth_error_Some. congruence.
  - pose proof (mm_spec _ _ _ (no_mm _ _ _ _ _ _ _ N)) as MM. destruct (tc_minmax c) as [[mn mx]|]; auto. destruct MM as [_ MI]. apply MI. eapply nth_error_In; eauto.
Qed.

Lemma fitted_exact_queries : tc_solver c = EXACT -> bins_ok c ->
  exists ids, NoDup ids /\
    (forall id, In id ids -> exists nd, node_at t id nd /\ below_depth c (nd_depth nd) /\ tc_min_split c < length (node_rows t id) /\ varied (labels_at L (node_rows t id))) /\
    t_queries t = list_sum (map (fun id => length (node_rows t id) * length (filter (scanned c a (node_rows t id)) (node_feats t id))) ids) /\
    (ta_budget a = None -> tc_max_leaves c <> Some (length (t_leaves t)) ->
     forall id nd, node_at t id nd -> below_depth c (nd_depth nd) -> tc_min_split c < length (node_rows t id) -> varied (labels_at L (node_rows t id)) -> In id ids).
Proof.
  intros SV BO. pose proof (built_tinv P M c a e t HB (tr_rows _ _ _ TR)) as T.
  exists (filter (fun id => match nth_error (t_nodes t) (id - 0) with Some nd => nd_computed nd | None => false end) (seq 0 (length (t_nodes t)))).
  split; [apply NoDup_filter, seq_NoDup|]. split; [|split].
  - intros id I. apply filter_In in I. destruct I as [_ I]. rewrite Nat.sub_0_r in I. destruct (nth_error (t_nodes t) id) as [nd|] eqn:A; [|discriminate I].
    exists nd. split; auto. rewrite (rows_of t id nd A). apply (no_elig _ _ _ _ _ _ _ (ti_node _ _ _ _ _ _ _ _ T _ _ A) I).
  - rewrite (ti_queries _ _ _ _ _ _ _ _ T), (sum_pick nd_queries nd_computed (t_nodes t) 0).
    + f_equal. apply map_ext_in. intros id I. apply filter_In in I. destruct I as [_ I]. rewrite Nat.sub_0_r in *. unfold node_feats. destruct (nth_error (t_nodes t) id) as [nd|] eqn:A; [|discriminate I].
      rewrite (rows_of t id nd A). now apply (node_queries id nd).
    + intros nd I Z. apply In_nth_error in I. destruct I as [id A]. apply (no_fresh _ _ _ _ _ _ _ (ti_node _ _ _ _ _ _ _ _ T _ _ A) Z).
  - intros BN NF id nd A E1 E2 E3. apply filter_In. rewrite Nat.sub_0_r. split; [apply in_seq; split; [lia|]; cbn; apply nth_error_Some; unfold node_at in A; congruence|].
    assert (Z : nth_error (t_nodes t) id = Some nd) by exact A. rewrite Z. rewrite (rows_of t id nd A) in *. pose proof (ti_node _ _ _ _ _ _ _ _ T _ _ A) as N.
    destruct (nd_left nd) as [l|] eqn:LF.
    + destruct (ti_inner _ _ _ _ _ _ _ _ T _ _ A) as (l' & r & nl & nr & s & v & x & I1 & I2 & I3 & I4 & I4' & I5 & I6 & I7 & I8 & I9 & I10 & I11 & _); [congruence|].
      destruct (nd_computed nd) eqn:C; auto. destruct (no_fresh _ _ _ _ _ _ _ N C). congruence.
    + assert (IL : In id (t_leaves t)) by (apply (ti_leaves _ _ _ _ _ _ _ _ T); eauto).
      destruct (built_loop P M c a e t HB (tr_rows _ _ _ TR)) as (t0 & e0 & d & fuel & e1 & HN & HL & T0 & _).
      destruct (new_spec _ _ _ _ _ _ HN) as (nd0 & e2 & ENN & ET & _).
      assert (FL : flags c (length L) (start_tree t0 d)).
      { split; [rewrite ET; reflexivity|]. intros j x Ax _ Sx. rewrite ET in Ax. unfold node_at in Ax. destruct j as [|[|j]]; cbn in Ax; try discriminate Ax. injection Ax as <-.
        unfold node_new in ENN. apply rbind_ok in ENN. destruct ENN as [[fs g] [_ Q]]. apply rbind_ok in Q. destruct Q as [_ [_ Q]]. apply rbind_ok in Q. destruct Q as [dd [_ Q]].
        apply rbind_ok in Q. destruct Q as [ll [_ Q]]. apply rbind_ok in Q. destruct Q as [mm [_ Q]]. apply rbind_ok in Q. destruct Q as [cs [_ Q]]. apply ok_pair_inv in Q. destruct Q as [<- _]. discriminate Sx. }
      assert (BS : t_budget (start_tree t0 d) = None) by (rewrite ET; cbn; auto).
      destruct (loop_search M c D L _ _ _ (length L) fuel _ _ _ _ T0 FL BS HL) as [X|X]; [contradiction|].
      destruct (X id IL) as [nd' [A' [_ HH]]]. assert (nd' = nd) by (unfold node_at in *; congruence). subst nd'.
      assert (CC : check_constraints c nd = Ok true) by (apply (constraints_complete M c a nd N LF); split; auto).
      destruct HH as [[HH|[C _]]|[C _]]; auto. congruence.
Qed.
End Value.

(** *** C110: a recorded reduction is that of an eligible node *)
Lemma fitted_best_first' P M c a e t : built P M c a e t -> train_rows a <> [] ->
  forall s ns k x l nl y,
  node_at t s ns -> nd_left ns = Some k -> nd_red ns = Some x ->
  node_at t l nl -> l <> s -> l < k -> (forall k', nd_left nl = Some k' -> k < k') -> nd_red nl = Some y ->
  xlt (xdiv (xmul y (Fin (Nq (length (node_rows t l))))) (Fin (Nq (length (ta_labels a))))) (Fin (tc_min_imp c)) = true ->
  xlt y x = false.
Proof.
  intros HB NE s ns k x l nl y A1 A2 A3 B1 B2 B3 B4 B5 B6. pose proof (built_tinv P M c a e t HB NE) as T. pose proof (ti_node _ _ _ _ _ _ _ _ T _ _ B1) as N.
  assert (C : nd_computed nl = true).
  { destruct (nd_computed nl) eqn:C; auto. destruct (no_fresh _ _ _ _ _ _ _ N C) as [_ Z]. rewrite (no_nosplit _ _ _ _ _ _ _ N Z) in B5. discriminate B5. }
  destruct (no_elig _ _ _ _ _ _ _ N C) as (E1 & E2 & E3).
  apply (fitted_best_first P M c a e t HB NE s ns k x l nl y); auto; rewrite (rows_of t l nl B1); auto.
Qed.

(** In classification with evenly spaced thresholds a bandit tree splits each node on the best
    split of one batch of its rows. *)
From Coq Require Import List Arith Bool ZArith QArith Qcanon Lia Permutation Sorted.
From Verif Require Import Base Num Rng Histogram Utils Criteria Solvers Tree Spec SolverSpec TreeSpec NumFacts ListFacts HistFacts HistAdd CritFacts ReductionFacts ExactFacts ExactProps DrawFacts UtilsFacts MabLoop MabProps MabThms TreeFacts CountFacts TreeThms TreeTotal TreeMore BestFirst TreeValue Forest ForestSpec BanditSpec BanditThms BatchSpec BatchThms.
Import ListNotations.
Local Open Scope nat_scope.

Section Batch.
Context (P : prng) (M : math) (c : tcfg) (a : targs) (e : env) (t : tree) (W : nat).
Context (TR : trainable c a W) (HB : built P M c a e t).
Notation D := (ta_data a).
Notation L := (ta_labels a).

Lemma batch_change nd ps f s v : tc_class c = true -> (forall p, In p ps -> p < length (nd_idcs nd)) -> nth_error (nd_feats nd) f = Some s ->
  reduction (impurity M (node_cfg c nd (node_bins c nd) (mab_measure c))) (picked (node_data a nd) (node_labels a nd) ps) f v =
  split_change M c a (map (fun p => nth p (nd_idcs nd) 0) ps) s v.
Proof.
  intros IC RG Es. unfold split_change.
  assert (Q : picked D L (map (fun p => nth p (nd_idcs nd) 0) ps) = map (fun p => (nth (nth p (nd_idcs nd) 0) D [], nth (nth p (nd_idcs nd) 0) L 0%Qc)) ps) by (unfold picked; now rewrite map_map).
  rewrite Q. clear Q.
  assert (Q : picked (node_data a nd) (node_labels a nd) ps = map (fun p => (map (cell D (nth p (nd_idcs nd) 0)) (nd_feats nd), nth (nth p (nd_idcs nd) 0) L 0%Qc)) ps).
  { unfold picked. apply map_ext_in. intros p I. specialize (RG p I). pose proof (nth_error_nth' (nd_idcs nd) 0 RG) as EN. f_equal.
    - unfold node_data. apply nth_error_nth. now rewrite nth_error_map, EN.
    - unfold node_labels, labels_at. apply nth_error_nth. now rewrite nth_error_map, EN. }
  rewrite Q. replace (impurity M (node_cfg c nd (node_bins c nd) (mab_measure c))) with (tree_impurity M c).
  - apply reduction_map; auto. intros p. unfold Spec.value_of. cbn [fst]. now rewrite (nth_error_nth _ _ 0%Qc (map_nth_error (cell D (nth p (nd_idcs nd) 0)) _ _ Es)).
  - unfold tree_impurity, impurity, class_imp, mab_measure. cbn. rewrite IC. destruct (tc_crit c); reflexivity.
Qed.

Lemma node_first id nd : tc_solver c = MAB -> tc_class c = true -> tc_bin c = LINEAR -> 1 <= tc_batch c -> bins_ok c -> ranges_cover c a ->
  node_at t id nd -> nd_computed nd = true ->
  5 < bins_at c (node_rows t id) * length (filter (scanned c a (node_rows t id)) (nd_feats nd)) ->
  exists J E, batch_of (tc_batch c) (tc_repl c) (node_rows t id) J /\
  (forall f' s', nth_error (nd_feats nd) f' = Some s' -> thresholds c a (node_rows t id) s' (E f')) /\
  ((exists s v f, nd_sf nd = Some s /\ nd_sv nd = Some v /\ nth_error (nd_feats nd) f = Some s /\ In v (E f) /\
     nd_red nd = Some (Fin (split_change M c a J s v * (rat (length (node_rows t id)) / rat (length (train_rows a))))%Qc) /\
     (split_change M c a J s v < 0)%Qc /\
     (forall f' s' v', nth_error (nd_feats nd) f' = Some s' -> In v' (E f') -> (split_change M c a J s v <= split_change M c a J s' v')%Qc)) \/
   (nd_sf nd = None /\ nd_red nd = None /\
     forall f' s' v', nth_error (nd_feats nd) f' = Some s' -> In v' (E f') -> (0 <= split_change M c a J s' v')%Qc)).
Proof.
  intros SV IC BT B1 BO RC A CP. rewrite (rows_of t id nd A). intros L5. pose proof (built_tinv P M c a e t HB (tr_rows _ _ _ TR)) as T.
  pose proof (ti_node _ _ _ _ _ _ _ _ T _ _ A) as N. pose proof (no_elig _ _ _ _ _ _ _ N CP) as EG.
  assert (MAIN : forall nd1 b e3 out bins e', node_solve M c nd1 b e3 = Ok (out, bins, e') -> posed c D L nd nd1 ->
    exists J E, batch_of (tc_batch c) (tc_repl c) (nd_idcs nd) J /\
      (forall f' s', nth_error (nd_feats nd) f' = Some s' -> thresholds c a (nd_idcs nd) s' (E f')) /\
      match out with
      | Found f v r q => exists s, nth_error (nd_feats nd) f = Some s /\ In v (E f) /\ r = Fin (split_change M c a J s v) /\ (split_change M c a J s v < 0)%Qc /\
          forall f' s' v', nth_error (nd_feats nd) f' = Some s' -> In v' (E f') -> (split_change M c a J s v <= split_change M c a J s' v')%Qc
      | NoSplit q => forall f' s' v', nth_error (nd_feats nd) f' = Some s' -> In v' (E f') -> (0 <= split_change M c a J s' v')%Qc
      end).
  { intros nd1 b e3 out bins e' H PO.
    destruct (solve_mab_eq M c a nd nd1 b e3 N PO SV) as [eps EQ]. rewrite EQ in H. apply rbind_ok in H. destruct H as [[out' e1'] [H1 H2]]. cbn [fst snd] in H2.
    assert (EO : out' = out) by congruence. subst out'. clear H2.
    pose proof (node_solvable M c a W TR nd (node_bins c nd) (mab_measure c) N (built_dd P M c a e t W TR HB _ _ A) (or_intror eq_refl) (bins_from_ok c a nd BO EG)) as S.
    destruct (mab_finished _ _ _ _ _ _ _ _ _ _ _ _ _ S B1 H1) as [E [_ [_ [_ [_ [_ [HC _]]]]]]].
    set (F := length (nd_feats nd)) in *. set (sc := node_cfg c nd (node_bins c nd) (mab_measure c)) in *.
    assert (KB : length (busy_features F E) = length (filter (scanned c a (nd_idcs nd)) (nd_feats nd))) by (apply (node_busy P M c a e t W TR HB id nd E BO A CP); exact HC).
    assert (NB : nbins sc (node_data a nd) = bins_at c (nd_idcs nd)) by (unfold nbins, sc; cbn; rewrite BT; reflexivity).
    assert (AC : arm_count F E = bins_at c (nd_idcs nd) * length (busy_features F E)).
    { apply arm_count_linear. intros f Hf. pose proof (HC f Hf) as C. unfold sc in C at 1. cbn [s_bin node_cfg] in C. rewrite BT, NB in C. cbn [candidates] in C. destruct C as (lo & hi & _ & [[_ Z]|[_ Z]]); [auto|].
      right. rewrite Z, map_length, seq_length. reflexivity. }
    assert (L5' : 5 < arm_count F E) by (rewrite AC, KB; exact L5).
    assert (LD : length (node_data a nd) = length (nd_idcs nd)) by apply map_length.
    assert (COV : forall f lo hi r, f < F -> range_of (s_minmax sc) (node_data a nd) f lo hi -> In r (node_data a nd) -> (nth f r 0 <= hi)%Qc).
    { intros f lo hi r Hf RG I. unfold sc in RG. cbn [node_cfg s_minmax] in RG. unfold node_data in I. apply in_map_iff in I. destruct I as [i [<- I]].
      destruct (nth_error (nd_feats nd) f) as [s|] eqn:Es; [|apply nth_error_None in Es; unfold F in Hf; lia].
      rewrite (nth_error_nth _ _ 0%Qc (map_nth_error (cell D i) _ _ Es)).
      pose proof (mm_spec _ _ _ (no_mm _ _ _ _ _ _ _ N)) as MM. unfold ranges_cover in RC. destruct (tc_minmax c) as [[mn mx]|].
      * destruct MM as [EM MI]. rewrite EM in RG. cbn [range_of] in RG. destruct RG as [_ RG]. rewrite nth_error_map, Es in RG. cbn in RG. injection RG as <-.
        destruct (MI s (nth_error_In _ _ Es)) as [_ L2]. apply (RC i s).
        -- apply (no_rows _ _ _ _ _ _ _ N). exact I.
        -- destruct (no_choice _ _ _ _ _ _ _ N) as (g & g' & EC). apply (proj1 (chosen_some _ _ _ _ _ EC)). eapply nth_error_In; eauto.
        -- now apply nth_error_nth'.
      * rewrite MM in RG. cbn [range_of] in RG. destruct RG as [_ [_ G]]. apply G. unfold feature_values, node_data. rewrite map_map. apply in_map_iff. exists i. split; auto.
        now rewrite (nth_error_nth _ _ 0%Qc (map_nth_error (cell D i) _ _ Es)). }
    assert (K2 : 2 <= length (nodup Qc_eq_dec (node_labels a nd))).
    { destruct EG as [_ [_ VAR]]. destruct VAR as (x & y & Ix & Iy & NE). unfold node_labels.
      assert (ND : NoDup [x; y]) by (constructor; [intros [Z|[]]; now apply NE|constructor; [easy|constructor]]).
      apply (NoDup_incl_length ND). intros w [<-|[<-|[]]]; now apply nodup_In. }
    pose proof (mab_first_batch M sc eps (tc_repl c) b (tc_batch c) (node_data a nd) (node_labels a nd) 0%Qc F e3 out e1' E S B1 IC BT COV K2 HC L5' H1) as BA.
    assert (PD : 1 <= length (node_data a nd)) by (pose proof (sv_rows _ _ _ _ S); destruct (node_data a nd); [contradiction|cbn; lia]).
    destruct (first_draw_spec (length (node_data a nd)) (tc_batch c) (tc_repl c) (e_gen e3) PD B1) as (D1 & D2 & D3 & D4). rewrite LD in *.
    set (ps := first_draw (length (nd_idcs nd)) (tc_batch c) (tc_repl c) (e_gen e3)) in *.
    exists (map (fun p => nth p (nd_idcs nd) 0) ps), E. split; [exists ps; ands; auto|]. split.
    { intros f s Es. apply (node_thresholds M c a nd f s (E f) N Es). apply HC. apply nth_error_Some. congruence. }
    pose proof (fun f s v Es => batch_change nd ps f s v IC D2 Es) as CH. fold sc in CH.
    destruct out as [f v r q|q]; cbn [best_answer] in BA.
    - destruct BA as (Hf & Iv & Er & LT & OPT). destruct (nth_error (nd_feats nd) f) as [s|] eqn:Es; [|apply nth_error_None in Es; unfold F in Hf; lia]. exists s.
      rewrite (CH f s v Es) in *. ands; auto. intros f' s' v' Es' Iv'. rewrite <- (CH f' s' v' Es'). apply OPT; auto. apply nth_error_Some. congruence.
    - intros f' s' v' Es' Iv'. rewrite <- (CH f' s' v' Es'). apply BA; auto. apply nth_error_Some. congruence. }
  destruct (nd_sf nd) as [s|] eqn:SF.
  - destruct (no_solved _ _ _ _ _ _ _ N s SF) as (f & v & x & PF & SV' & RX & nd1 & b & e3 & r0 & q & bins & e' & H1 & H2 & H3 & H4 & H5 & H6 & H7 & H8).
    destruct (MAIN _ _ _ _ _ _ H1 ltac:(unfold posed; auto)) as (J & E & BJ & HT & s' & Es & Iv & Er & LT & OPT). assert (s' = s) by congruence. subst s'.
    exists J, E. ands; auto. left. exists s, v, f. ands; auto. rewrite RX, H6, Er, (no_prop _ _ _ _ _ _ _ N). reflexivity.
  - destruct (no_failed _ _ _ _ _ _ _ N CP SF) as (nd1 & b & e3 & q & bins & e' & H1 & H2 & H3 & H4 & H5 & H6).
    destruct (MAIN _ _ _ _ _ _ H1 ltac:(unfold posed; auto)) as (J & E & BJ & HT & OPT). exists J, E. ands; auto. right. ands; auto. apply (no_nosplit _ _ _ _ _ _ _ N SF).
Qed.
Lemma split_searched id nd : node_at t id nd -> nd_left nd <> None -> nd_computed nd = true.
Proof.
  intros A H. pose proof (built_tinv P M c a e t HB (tr_rows _ _ _ TR)) as T. pose proof (ti_node _ _ _ _ _ _ _ _ T _ _ A) as N.
  destruct (ti_inner _ _ _ _ _ _ _ _ T _ _ A H) as (l & r & nl & nr & s & v & x & I1 & I2 & I3 & I4 & I4' & I5 & I6 & I7 & I8 & I9 & I10 & I11 & I12 & I13 & _).
  destruct (nd_computed nd) eqn:CP; auto. pose proof (fresh_red _ _ _ _ _ _ _ N CP). congruence.
Qed.

(** *** C179 *)
Lemma bandit_split id nd : tc_solver c = MAB -> tc_class c = true -> tc_bin c = LINEAR -> 1 <= tc_batch c -> bins_ok c -> ranges_cover c a ->
  node_at t id nd -> nd_left nd <> None ->
  5 < bins_at c (node_rows t id) * length (filter (scanned c a (node_rows t id)) (nd_feats nd)) ->
  exists J E s v f, batch_of (tc_batch c) (tc_repl c) (node_rows t id) J /\
    (forall f' s', nth_error (nd_feats nd) f' = Some s' -> thresholds c a (node_rows t id) s' (E f')) /\
    nd_sf nd = Some s /\ nd_sv nd = Some v /\ nth_error (nd_feats nd) f = Some s /\ In v (E f) /\
    nd_red nd = Some (Fin (split_change M c a J s v * (rat (length (node_rows t id)) / rat (length (train_rows a))))%Qc) /\
    (split_change M c a J s v < 0)%Qc /\
    (forall f' s' v', nth_error (nd_feats nd) f' = Some s' -> In v' (E f') -> (split_change M c a J s v <= split_change M c a J s' v')%Qc).
Proof.
  intros SV IC BT B1 BO RC A LF L5. destruct (node_first id nd SV IC BT B1 BO RC A (split_searched id nd A LF) L5) as (J & E & BJ & HT & [(s & v & f & R)|(Z & _)]).
  - exists J, E, s, v, f. ands; auto; apply R.
  - exfalso. pose proof (built_tinv P M c a e t HB (tr_rows _ _ _ TR)) as T.
    destruct (ti_inner _ _ _ _ _ _ _ _ T _ _ A LF) as (l & r & nl & nr & s & v & x & I1 & I2 & I3 & I4 & I4' & I5 & I6 & I7 & I8 & I9 & I10 & I11 & _). congruence.
Qed.

(** A leaf that might have been split: its batch holds no gain, or a gain that is not enough. *)
Lemma bandit_leaf id nd : tc_solver c = MAB -> tc_class c = true -> tc_bin c = LINEAR -> 1 <= tc_batch c -> bins_ok c -> ranges_cover c a ->
  ta_budget a = None -> tc_max_leaves c <> Some (length (t_leaves t)) -> node_at t id nd -> may_split c a t id ->
  5 < bins_at c (node_rows t id) * length (filter (scanned c a (node_rows t id)) (nd_feats nd)) ->
  exists J E, batch_of (tc_batch c) (tc_repl c) (node_rows t id) J /\
  (forall f' s', nth_error (nd_feats nd) f' = Some s' -> thresholds c a (node_rows t id) s' (E f')) /\
  ((exists s v f, nd_sf nd = Some s /\ nd_sv nd = Some v /\ nth_error (nd_feats nd) f = Some s /\ In v (E f) /\
     nd_red nd = Some (Fin (split_change M c a J s v * (rat (length (node_rows t id)) / rat (length (train_rows a))))%Qc) /\
     (split_change M c a J s v < 0)%Qc /\
     (forall f' s' v', nth_error (nd_feats nd) f' = Some s' -> In v' (E f') -> (split_change M c a J s v <= split_change M c a J s' v')%Qc)) \/
   (nd_sf nd = None /\ nd_red nd = None /\
     forall f' s' v', nth_error (nd_feats nd) f' = Some s' -> In v' (E f') -> (0 <= split_change M c a J s' v')%Qc)).
Proof.
  intros SV IC BT B1 BO RC BN ML A MS L5. destruct (searched_nodes P M c a e t W TR HB) as (ids & _ & CP & _ & _ & CO). destruct (CP id (CO BN ML id MS)) as (nd' & A' & C).
  assert (nd' = nd) by (unfold node_at in *; congruence). subst nd'. apply node_first; auto.
Qed.
End Batch.

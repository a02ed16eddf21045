(** Nodes whose rows fit in one batch: the bandit search finds the best split of all of them. *)
From Coq Require Import List Arith Bool ZArith QArith Qcanon Lia Permutation Sorted.
From Verif Require Import Base Num Rng Histogram Utils Criteria Solvers Tree Spec SolverSpec TreeSpec NumFacts ListFacts HistFacts HistAdd CritFacts ReductionFacts ExactFacts ExactProps DrawFacts UtilsFacts MabLoop MabProps MabThms TreeFacts CountFacts TreeThms TreeTotal TreeMore BestFirst TreeValue Forest ForestSpec BanditSpec BanditThms BatchSpec BatchThms BatchTree.
Import ListNotations.
Local Open Scope nat_scope.

Section Small.
Context (P : prng) (M : math) (c : tcfg) (a : targs) (e : env) (t : tree) (W : nat).
Context (TR : trainable c a W) (HB : built P M c a e t).
Notation D := (ta_data a).
Notation L := (ta_labels a).

Lemma measure_same nd : impurity M (node_cfg c nd (node_bins c nd) (mab_measure c)) = tree_impurity M c.
Proof. unfold tree_impurity, impurity, class_imp, mab_measure. cbn. destruct (tc_class c), (tc_crit c); reflexivity. Qed.

Lemma whole_change nd f s v : nth_error (nd_feats nd) f = Some s ->
  reduction (impurity M (node_cfg c nd (node_bins c nd) (mab_measure c))) (combine (node_data a nd) (node_labels a nd)) f v = split_change M c a (nd_idcs nd) s v.
Proof.
  intros Es. unfold node_data, node_labels, labels_at. rewrite combine_maps. unfold split_change, picked. rewrite measure_same.
  apply reduction_map; auto. intros i. unfold Spec.value_of. cbn [fst]. apply nth_error_nth. now rewrite nth_error_map, Es.
Qed.

Lemma node_arms id nd E : tc_solver c = MAB -> tc_bin c <> IDENTITY -> bins_ok c -> node_at t id nd -> nd_computed nd = true ->
  (forall f, f < length (nd_feats nd) -> candidates (tc_bin c) (nbins (node_cfg c nd (node_bins c nd) (mab_measure c)) (node_data a nd)) (nd_minmax nd) (node_data a nd) f (E f)) ->
  arm_count (length (nd_feats nd)) E = bins_at c (nd_idcs nd) * length (filter (scanned c a (nd_idcs nd)) (nd_feats nd)).
Proof.
  intros SV NI BO A CP HC. rewrite <- (node_busy P M c a e t W TR HB id nd E BO A CP HC). apply arm_count_linear. intros f Hf. specialize (HC f Hf). unfold bins_ok in BO.
  assert (NB : nbins (node_cfg c nd (node_bins c nd) (mab_measure c)) (node_data a nd) = bins_at c (nd_idcs nd)) by (unfold nbins; cbn; destruct (tc_bin c); try contradiction; reflexivity).
  rewrite NB in HC. destruct (tc_bin c); try contradiction; cbn [candidates] in HC.
  - destruct HC as (lo & hi & _ & [[_ Z]|[_ Z]]); [auto|]. right. rewrite Z, map_length, seq_length. reflexivity.
  - right. destruct HC as (lo & hi & _ & _ & Z & _). exact Z.
Qed.

Lemma node_small id nd : tc_solver c = MAB -> tc_bin c <> IDENTITY -> bins_ok c -> node_at t id nd -> nd_computed nd = true ->
  length (node_rows t id) <= tc_batch c ->
  (let k := length (filter (scanned c a (node_rows t id)) (nd_feats nd)) in 0 < k -> 5 < bins_at c (node_rows t id) * k) ->
  nd_queries nd = full_price c a (node_rows t id) (nd_feats nd) /\
  exists E, (forall f' s', nth_error (nd_feats nd) f' = Some s' -> thresholds c a (node_rows t id) s' (E f')) /\
  ((exists s v f, nd_sf nd = Some s /\ nd_sv nd = Some v /\ nth_error (nd_feats nd) f = Some s /\ In v (E f) /\
     nd_red nd = Some (Fin (split_change M c a (node_rows t id) s v * (rat (length (node_rows t id)) / rat (length (train_rows a))))%Qc) /\
     (split_change M c a (node_rows t id) s v < 0)%Qc /\
     (forall f' s' v', nth_error (nd_feats nd) f' = Some s' -> In v' (E f') ->
       (split_change M c a (node_rows t id) s v <= split_change M c a (node_rows t id) s' v')%Qc)) \/
   (nd_sf nd = None /\ nd_red nd = None /\
     forall f' s' v', nth_error (nd_feats nd) f' = Some s' -> In v' (E f') -> (0 <= split_change M c a (node_rows t id) s' v')%Qc)).
Proof.
  intros SV NI BO A CP. rewrite (rows_of t id nd A). intros LB L5. cbv zeta in L5. pose proof (built_tinv P M c a e t HB (tr_rows _ _ _ TR)) as T.
  pose proof (ti_node _ _ _ _ _ _ _ _ T _ _ A) as N. pose proof (no_elig _ _ _ _ _ _ _ N CP) as EG.
  assert (MAIN : forall nd1 b e3 out bins e', node_solve M c nd1 b e3 = Ok (out, bins, e') -> posed c D L nd nd1 ->
    sres_q out = full_price c a (nd_idcs nd) (nd_feats nd) /\
    exists E, (forall f' s', nth_error (nd_feats nd) f' = Some s' -> thresholds c a (nd_idcs nd) s' (E f')) /\
      match out with
      | Found f v r q => exists s, nth_error (nd_feats nd) f = Some s /\ In v (E f) /\ r = Fin (split_change M c a (nd_idcs nd) s v) /\ (split_change M c a (nd_idcs nd) s v < 0)%Qc /\
          forall f' s' v', nth_error (nd_feats nd) f' = Some s' -> In v' (E f') -> (split_change M c a (nd_idcs nd) s v <= split_change M c a (nd_idcs nd) s' v')%Qc
      | NoSplit q => forall f' s' v', nth_error (nd_feats nd) f' = Some s' -> In v' (E f') -> (0 <= split_change M c a (nd_idcs nd) s' v')%Qc
      end).
  { intros nd1 b e3 out bins e' H PO.
    destruct (solve_mab_eq M c a nd nd1 b e3 N PO SV) as [eps EQ]. rewrite EQ in H. apply rbind_ok in H. destruct H as [[out' e1'] [H1 H2]]. cbn [fst snd] in H2.
    assert (EO : out' = out) by congruence. subst out'. clear H2.
    pose proof (node_solvable M c a W TR nd (node_bins c nd) (mab_measure c) N (built_dd P M c a e t W TR HB _ _ A) (or_intror eq_refl) (bins_from_ok c a nd BO EG)) as S.
    assert (LD : length (node_data a nd) = length (nd_idcs nd)) by apply map_length.
    destruct (Nat.eq_0_gt_0_cases (length (filter (scanned c a (nd_idcs nd)) (nd_feats nd)))) as [Z|Z].
    { assert (B1 : 1 <= tc_batch c) by (pose proof (no_ne _ _ _ _ _ _ _ N); destruct (nd_idcs nd); [contradiction|cbn in LB; lia]).
      destruct (mab_finished _ _ _ _ _ _ _ _ _ _ _ _ _ S B1 H1) as [E [mh [s [f [bb [v [HC [_ [_ [_ [_ [_ [_ [Hf [_ [EV [_ EO]]]]]]]]]]]]]]]]]. cbn beta zeta in *.
      pose proof (node_arms id nd E SV NI BO A CP HC) as AC. rewrite Z, Nat.mul_0_r in AC.
      assert (NO : forall f, f < length (nd_feats nd) -> E f = []).
      { intros f' Hf'. destruct (E f') as [|x l] eqn:EE; auto. exfalso. pose proof (node_busy P M c a e t W TR HB id nd E BO A CP HC) as BU. rewrite Z in BU.
        assert (I : In f' (busy_features (length (nd_feats nd)) E)) by (unfold busy_features; apply filter_In; split; [apply in_seq; lia|now rewrite EE]).
        destruct (busy_features _ _); [destruct I|discriminate BU]. }
      split. { unfold full_price. rewrite Z, Nat.mul_0_r. refine (mab_idle _ _ _ _ _ _ _ _ _ _ _ _ _ E S B1 HC _ H1). lia. }
      exists E. split. { intros f' s' Es. apply (node_thresholds M c a nd f' s' (E f') N Es). apply HC. apply nth_error_Some. congruence. }
      destruct EV as [EV|EV]; [rewrite (NO f Hf) in EV; destruct bb; discriminate EV|]. rewrite EV in EO. subst out.
      intros f' s' v' Es' I. rewrite (NO f') in I; [destruct I|apply nth_error_Some; congruence]. }
    specialize (L5 Z).
    destruct (mab_full _ _ _ _ _ _ _ _ _ _ _ _ _ S ltac:(rewrite LD; exact LB) H1) as [E [HC K]].
    assert (AC : 5 < arm_count (length (nd_feats nd)) E) by (rewrite (node_arms id nd E SV NI BO A CP HC); exact L5).
    destruct (K AC) as [BA SQ]. split.
    { rewrite SQ, LD, (node_busy P M c a e t W TR HB id nd E BO A CP HC). reflexivity. }
    exists E. split.
    { intros f s Es. apply (node_thresholds M c a nd f s (E f) N Es). apply HC. apply nth_error_Some. congruence. }
    destruct out as [f v r q|q]; cbn [best_answer] in BA.
    - destruct BA as (Hf & Iv & Er & LT & OPT). destruct (nth_error (nd_feats nd) f) as [s|] eqn:Es; [|apply nth_error_None in Es; lia]. exists s.
      rewrite (whole_change nd f s v Es) in *. ands; auto. intros f' s' v' Es' Iv'. rewrite <- (whole_change nd f' s' v' Es'). apply OPT; auto. apply nth_error_Some. congruence.
    - intros f' s' v' Es' Iv'. rewrite <- (whole_change nd f' s' v' Es'). apply BA; auto. apply nth_error_Some. congruence. }
  destruct (nd_sf nd) as [s|] eqn:SF.
  - destruct (no_solved _ _ _ _ _ _ _ N s SF) as (f & v & x & PF & SV' & RX & nd1 & b & e3 & r0 & q & bins & e' & H1 & H2 & H3 & H4 & H5 & H6 & H7 & H8).
    destruct (MAIN _ _ _ _ _ _ H1 ltac:(unfold posed; auto)) as (Q & E & HT & s' & Es & Iv & Er & LT & OPT). assert (s' = s) by congruence. subst s'.
    split; [rewrite <- Q; cbn; auto|]. exists E. ands; auto. left. exists s, v, f. ands; auto. rewrite RX, H6, Er, (no_prop _ _ _ _ _ _ _ N). reflexivity.
  - destruct (no_failed _ _ _ _ _ _ _ N CP SF) as (nd1 & b & e3 & q & bins & e' & H1 & H2 & H3 & H4 & H5 & H6).
    destruct (MAIN _ _ _ _ _ _ H1 ltac:(unfold posed; auto)) as (Q & E & HT & OPT). split; [rewrite <- Q; cbn; auto|]. exists E. ands; auto. right. ands; auto. apply (no_nosplit _ _ _ _ _ _ _ N SF).
Qed.

Lemma filter_length_le {A} (p : A -> bool) l : length (filter p l) <= length l.
Proof. induction l as [|x l IH]; cbn; [lia|]. destruct (p x); cbn; lia. Qed.
Lemma rows_bound id nd : node_at t id nd -> length (node_rows t id) <= length (train_rows a).
Proof.
  pose proof (built_tinv P M c a e t HB (tr_rows _ _ _ TR)) as T. revert nd. induction id as [id IH] using lt_wf_ind. intros nd A. destruct id as [|id].
  - destruct (ti_root _ _ _ _ _ _ _ _ T) as (r & A' & E & _). unfold node_rows. unfold node_at in A'. rewrite A', E. lia.
  - destruct (ti_parent _ _ _ _ _ _ _ _ T _ _ A ltac:(lia)) as (p & pn & P1 & P2 & P3 & P4).
    assert (LF : nd_left pn <> None). { intros Z. destruct (ti_leaf _ _ _ _ _ _ _ _ T _ _ P3 Z) as [Z' _]. destruct P4; congruence. }
    destruct (split_node P M c a e t HB (tr_rows _ _ _ TR) p pn P3 LF) as (l & r & s & v & I1 & I2 & _ & _ & _ & _ & _ & _ & _ & R1 & R2).
    pose proof (IH p P2 pn P3) as LE. destruct P4 as [Q|Q].
    + assert (l = S id) by congruence. subst l. rewrite R1. etransitivity; [apply filter_length_le|exact LE].
    + assert (r = S id) by congruence. subst r. rewrite R2. etransitivity; [apply filter_length_le|exact LE].
Qed.

(** Why a leaf that may be split is one: the search found nothing, or not enough. *)
Lemma leaf_stop id nd : ta_budget a = None -> tc_max_leaves c <> Some (length (t_leaves t)) -> In id (t_leaves t) -> node_at t id nd ->
  below_depth c (nd_depth nd) -> tc_min_split c < length (node_rows t id) -> varied (labels_at L (node_rows t id)) ->
  nd_computed nd = true /\ forall g, nd_red nd = Some (Fin (g * nd_prop nd)%Qc) -> (tc_min_imp c <= nd_prop nd * g)%Qc \/ (tc_min_imp c <= nd_prop nd * g * (Nq (length (node_rows t id)) / Nq (length L)))%Qc.
Proof.
  intros BN NF IL A E1 E2 E3. rewrite (rows_of t id nd A) in *.
  destruct (built_loop P M c a e t HB (tr_rows _ _ _ TR)) as (t0 & e0 & d & fuel & e1 & HN & HL & T0 & _).
  destruct (new_spec _ _ _ _ _ _ HN) as (nd0 & e2 & ENN & ET & _).
  assert (FL : flags c (length L) (start_tree t0 d)).
  { split; [rewrite ET; reflexivity|]. intros j x Ax _ Sx. rewrite ET in Ax. unfold node_at in Ax. destruct j as [|[|j]]; cbn in Ax; try discriminate Ax. injection Ax as <-.
    unfold node_new in ENN. apply rbind_ok in ENN. destruct ENN as [[fs g] [_ Q]]. apply rbind_ok in Q. destruct Q as [_ [_ Q]]. apply rbind_ok in Q. destruct Q as [dd [_ Q]].
    apply rbind_ok in Q. destruct Q as [ll [_ Q]]. apply rbind_ok in Q. destruct Q as [mm [_ Q]]. apply rbind_ok in Q. destruct Q as [cs [_ Q]]. apply ok_pair_inv in Q. destruct Q as [<- _]. discriminate Sx. }
  assert (BS : t_budget (start_tree t0 d) = None) by (rewrite ET; cbn; auto).
  destruct (loop_search M c D L _ _ _ (length L) fuel _ _ _ _ T0 FL BS HL) as [X|X]; [contradiction|].
  destruct (X id IL) as [nd' [A' [LF HH]]]. assert (nd' = nd) by (unfold node_at in *; congruence). subst nd'.
  pose proof (built_tinv P M c a e t HB (tr_rows _ _ _ TR)) as T. pose proof (ti_node _ _ _ _ _ _ _ _ T _ _ A) as N.
  assert (EG : eligible c L nd) by (split; auto). pose proof (constraints_complete M c a nd N LF EG) as CC.
  assert (PP : (0 < nd_prop nd)%Qc).
  { rewrite (no_prop _ _ _ _ _ _ _ N). pose proof (no_ne _ _ _ _ _ _ _ N) as NEI. assert (0 < length (nd_idcs nd)) by (destruct (nd_idcs nd); [contradiction|cbn; lia]).
    assert (0 < length (train_rows a)) by (pose proof (tr_rows _ _ _ TR); destruct (train_rows a); [contradiction|cbn; lia]).
    unfold Qcdiv. apply qmult_lt_0; [now apply Nq_pos|]. now apply qinv_pos, Nq_pos. }
  assert (LP : 0 < length L).
  { pose proof (tr_rows _ _ _ TR) as RN. pose proof (tr_rows_in _ _ _ TR) as RI. destruct (train_rows a) as [|i l]; [contradiction|]. specialize (RI i (or_introl eq_refl)). lia. }
  assert (PN : (0 <= Nq (length (nd_idcs nd)) / Nq (length L))%Qc).
  { pose proof (no_ne _ _ _ _ _ _ _ N) as NEI. unfold Qcdiv.
    apply Qclt_le_weak, qmult_lt_0; [apply Nq_pos; destruct (nd_idcs nd); [contradiction|cbn; lia]|]. apply qinv_pos, Nq_pos. exact LP. }
  assert (COMP : nd_computed nd = true /\ (nd_red nd = None \/ exists x, nd_red nd = Some x /\ (xlt x (Fin (tc_min_imp c)) = false \/ weighted c (length L) nd x = false))).
  { destruct HH as [[HH|[C [HH|[x [RX HH]]]]]|[C [x [RX HH]]]]; [congruence|auto|split; eauto|]. split; auto. right. exists x. auto. }
  destruct COMP as [C COMP]. clear HH X FL HL.
  split; [exact C|]. intros g RG. destruct COMP as [COMP|[y [RY COMP]]]; [congruence|]. assert (y = Fin (g * nd_prop nd)%Qc) by congruence. subst y. destruct COMP as [COMP|COMP].
  - left. cbn in COMP. apply qlt_false in COMP. now rewrite (Qcmult_comm (nd_prop nd)).
  - right. unfold weighted in COMP. rewrite (no_n _ _ _ _ _ _ _ N) in COMP.
    cbn [xmul xdiv] in COMP. assert (ZL : qeq (Nq (length L)) 0 = false) by (apply qeq_false; now apply Nq_neq0). rewrite ZL in COMP. cbn [xlt] in COMP.
    apply qlt_false in COMP. eapply Qcle_trans; [exact COMP|]. match goal with |- (?x <= ?y)%Qc => assert (Z : x = y) by (unfold Qcdiv; ring); rewrite Z; apply Qcle_refl end.
Qed.
Lemma share_pos id nd : node_at t id nd -> (0 < nd_prop nd)%Qc /\ (0 <= Nq (length (node_rows t id)) / Nq (length L))%Qc.
Proof.
  intros A. rewrite (rows_of t id nd A). pose proof (built_tinv P M c a e t HB (tr_rows _ _ _ TR)) as T. pose proof (ti_node _ _ _ _ _ _ _ _ T _ _ A) as N.
  pose proof (no_ne _ _ _ _ _ _ _ N) as NEI. assert (0 < length (nd_idcs nd)) by (destruct (nd_idcs nd); [contradiction|cbn; lia]).
  assert (0 < length (train_rows a)) by (pose proof (tr_rows _ _ _ TR); destruct (train_rows a); [contradiction|cbn; lia]).
  assert (LP : 0 < length L).
  { pose proof (tr_rows _ _ _ TR) as RN. pose proof (tr_rows_in _ _ _ TR) as RI. destruct (train_rows a) as [|i l]; [contradiction|]. specialize (RI i (or_introl eq_refl)). lia. }
  split; [rewrite (no_prop _ _ _ _ _ _ _ N); unfold Qcdiv; apply qmult_lt_0; [now apply Nq_pos|now apply qinv_pos, Nq_pos]|].
  unfold Qcdiv. apply Qclt_le_weak, qmult_lt_0; [now apply Nq_pos|now apply qinv_pos, Nq_pos].
Qed.

(** A leaf of a classification tree: no split of its batch gains enough. *)
Lemma bandit_stop id nd : tc_solver c = MAB -> tc_class c = true -> tc_bin c = LINEAR -> 1 <= tc_batch c -> bins_ok c -> ranges_cover c a ->
  ta_budget a = None -> tc_max_leaves c <> Some (length (t_leaves t)) -> In id (t_leaves t) -> node_at t id nd ->
  below_depth c (nd_depth nd) -> tc_min_split c < length (node_rows t id) -> varied (labels_at (ta_labels a) (node_rows t id)) ->
  5 < bins_at c (node_rows t id) * length (filter (scanned c a (node_rows t id)) (nd_feats nd)) ->
  exists J E, batch_of (tc_batch c) (tc_repl c) (node_rows t id) J /\
    (forall f' s', nth_error (nd_feats nd) f' = Some s' -> thresholds c a (node_rows t id) s' (E f')) /\
    (forall f' s' v', nth_error (nd_feats nd) f' = Some s' -> In v' (E f') ->
       let gain := split_change M c a J s' v' in
       (0 <= gain)%Qc \/ (tc_min_imp c <= nd_prop nd * gain)%Qc \/
       (tc_min_imp c <= nd_prop nd * gain * (rat (length (node_rows t id)) / rat (length (ta_labels a))))%Qc).
Proof.
  intros SV IC BT B1 BO RC BN ML IL A E1 E2 E3 L5. destruct (leaf_stop id nd BN ML IL A E1 E2 E3) as [CP ST]. destruct (share_pos id nd A) as [PP PN].
  destruct (node_first P M c a e t W TR HB id nd SV IC BT B1 BO RC A CP L5) as (J & E & BJ & HT & [(s & v & f & R1 & R2 & R3 & R4 & R5 & R6 & R7)|(_ & _ & Z)]); exists J, E; (split; [exact BJ|]; split; [exact HT|]).
  - intros f' s' v' Es' Iv'. cbv zeta. right. specialize (R7 f' s' v' Es' Iv').
    set (g := split_change M c a J s v) in *. set (g' := split_change M c a J s' v') in *.
    assert (MON : (nd_prop nd * g <= nd_prop nd * g')%Qc). { rewrite !(Qcmult_comm (nd_prop nd)). apply Qcmult_le_compat_r; auto. now apply Qclt_le_weak. }
    destruct (ST g) as [G|G].
    + rewrite R5, (no_prop _ _ _ _ _ _ _ (ti_node _ _ _ _ _ _ _ _ (built_tinv P M c a e t HB (tr_rows _ _ _ TR)) _ _ A)), (rows_of t id nd A). reflexivity.
    + left. eapply Qcle_trans; eauto.
    + right. eapply Qcle_trans; [exact G|]. apply Qcmult_le_compat_r; auto.
  - intros f' s' v' Es' Iv'. cbv zeta. left. eapply Z; eauto.
Qed.

Section Whole.
Context (SV : tc_solver c = MAB) (NI : tc_bin c <> IDENTITY) (BO : bins_ok c) (LS : tc_log_split c = false) (B6 : 6 <= tc_nb c) (LB : length (train_rows a) <= tc_batch c).
Lemma enough id nd : let k := length (filter (scanned c a (node_rows t id)) (nd_feats nd)) in 0 < k -> 5 < bins_at c (node_rows t id) * k.
Proof. intros k K. unfold bins_at. rewrite LS. assert (tc_nb c * 1 <= tc_nb c * k) by (apply Nat.mul_le_mono_l; lia). lia. Qed.

Lemma small_split id nd : node_at t id nd -> nd_left nd <> None ->
  exists s v E f, nd_sf nd = Some s /\ nd_sv nd = Some v /\ nth_error (nd_feats nd) f = Some s /\ In v (E f) /\
    nd_red nd = Some (Fin (split_change M c a (node_rows t id) s v * nd_prop nd)%Qc) /\ (split_change M c a (node_rows t id) s v < 0)%Qc /\
    (forall f' s', nth_error (nd_feats nd) f' = Some s' -> thresholds c a (node_rows t id) s' (E f')) /\
    (forall f' s' v', nth_error (nd_feats nd) f' = Some s' -> In v' (E f') ->
       (split_change M c a (node_rows t id) s v <= split_change M c a (node_rows t id) s' v')%Qc).
Proof.
  intros A LF. destruct (node_small id nd SV NI BO A (split_searched P M c a e t W TR HB id nd A LF) ltac:(etransitivity; [eapply rows_bound; eauto|exact LB]) (enough id nd)) as (_ & E & HT & [(s & v & f & R1 & R2 & R3 & R4 & R5 & R6 & R7)|(Z & _)]).
  - exists s, v, E, f. ands; auto. rewrite R5, (no_prop _ _ _ _ _ _ _ (ti_node _ _ _ _ _ _ _ _ (built_tinv P M c a e t HB (tr_rows _ _ _ TR)) _ _ A)), (rows_of t id nd A). reflexivity.
  - exfalso. pose proof (built_tinv P M c a e t HB (tr_rows _ _ _ TR)) as T.
    destruct (ti_inner _ _ _ _ _ _ _ _ T _ _ A LF) as (l & r & nl & nr & s & v & x & I1 & I2 & I3 & I4 & I4' & I5 & I6 & I7 & I8 & I9 & I10 & I11 & _). congruence.
Qed.

Lemma small_queries : exists ids, NoDup ids /\ (forall id, In id ids -> may_split c a t id) /\
    t_queries t = list_sum (map (fun id => full_price c a (node_rows t id) (node_feats t id)) ids) /\
    (ta_budget a = None -> tc_max_leaves c <> Some (length (t_leaves t)) -> forall id, may_split c a t id -> In id ids).
Proof.
  destruct (searched_nodes P M c a e t W TR HB) as (ids & ND & CP & MS & Q & CO). exists ids. ands; auto. rewrite Q. apply list_sum_ext. intros id I.
  destruct (CP id I) as (nd & A & C). unfold queries_at, node_feats. assert (A' := A). unfold node_at in A'. rewrite A'.
  apply (node_small id nd SV NI BO A C); [etransitivity; [eapply rows_bound; eauto|exact LB]|exact (enough id nd)].
Qed.

Lemma small_leaf id nd : ta_budget a = None -> tc_max_leaves c <> Some (length (t_leaves t)) -> In id (t_leaves t) -> node_at t id nd ->
  below_depth c (nd_depth nd) -> tc_min_split c < length (node_rows t id) -> varied (labels_at L (node_rows t id)) ->
  exists E, (forall f' s', nth_error (nd_feats nd) f' = Some s' -> thresholds c a (node_rows t id) s' (E f')) /\
    (forall f' s' v', nth_error (nd_feats nd) f' = Some s' -> In v' (E f') ->
       let gain := split_change M c a (node_rows t id) s' v' in
       (0 <= gain)%Qc \/ (tc_min_imp c <= nd_prop nd * gain)%Qc \/
       (tc_min_imp c <= nd_prop nd * gain * (Nq (length (node_rows t id)) / Nq (length L)))%Qc).
Proof.
  intros BN ML IL A E1 E2 E3. destruct (leaf_stop id nd BN ML IL A E1 E2 E3) as [CP ST]. destruct (share_pos id nd A) as [PP PN].
  destruct (node_small id nd SV NI BO A CP ltac:(etransitivity; [eapply rows_bound; eauto|exact LB]) (enough id nd)) as (_ & E & HT & [(s & v & f & R1 & R2 & R3 & R4 & R5 & R6 & R7)|(_ & _ & Z)]); exists E; (split; [exact HT|]).
  - intros f' s' v' Es' Iv'. cbv zeta. right. specialize (R7 f' s' v' Es' Iv').
    set (g := split_change M c a (node_rows t id) s v) in *. set (g' := split_change M c a (node_rows t id) s' v') in *.
    assert (MON : (nd_prop nd * g <= nd_prop nd * g')%Qc). { rewrite !(Qcmult_comm (nd_prop nd)). apply Qcmult_le_compat_r; auto. now apply Qclt_le_weak. }
    destruct (ST g) as [G|G].
    + rewrite R5, (no_prop _ _ _ _ _ _ _ (ti_node _ _ _ _ _ _ _ _ (built_tinv P M c a e t HB (tr_rows _ _ _ TR)) _ _ A)), (rows_of t id nd A). reflexivity.
    + left. eapply Qcle_trans; eauto.
    + right. eapply Qcle_trans; [exact G|]. apply Qcmult_le_compat_r; auto.
  - intros f' s' v' Es' Iv'. cbv zeta. left. eapply Z; eauto.
Qed.
End Whole.
End Small.

(** What a tree fitted with the bandit search costs. *)
From Coq Require Import List Arith Bool ZArith QArith Qcanon Lia Permutation Sorted.
From Verif Require Import Base Num Rng Histogram Utils Criteria Solvers Tree Spec SolverSpec TreeSpec NumFacts ListFacts HistFacts HistAdd CritFacts ReductionFacts ExactFacts ExactProps DrawFacts UtilsFacts MabLoop MabProps MabThms TreeFacts CountFacts TreeThms TreeTotal TreeMore BestFirst TreeValue Forest ForestSpec BanditSpec.
Import ListNotations.
Local Open Scope nat_scope.

(** With at most five candidates nothing is sampled. *)
Lemma mab_idle M c eps repl budget batch data labels mir W e0 out e1 E :
  solvable c data labels W -> 1 <= batch ->
  (forall f, f < W -> candidates (s_bin c) (nbins c data) (s_minmax c) data f (E f)) -> arm_count W E <= 5 ->
  solve_mab M c eps repl budget batch data labels mir e0 = Ok (out, e1) -> sres_q out = 0.
Proof.
  intros S HB HCE L5 H. pose proof (mab_run _ _ _ _ _ _ _ _ _ _ _ _ _ S H) as [NI _].
  destruct (mab_finished _ _ _ _ _ _ _ _ _ _ _ _ _ S HB H) as [E1 [mh [s [f [b [v [HC [HE [EM [EL [ST [FI [SS [Hf [Hb [EV [BEST EO]]]]]]]]]]]]]]]]].
  cbn beta zeta in *.
  assert (CNT : arm_count W (edges_of (mh_hists mh)) = arm_count W E).
  { rewrite <- (arm_count_ext _ _ _ HE). apply list_sum_ext. intros f' I. apply in_seq in I. eapply candidates_length; [exact NI|apply HC; lia|apply HCE; lia]. }
  pose proof (mab_count c eps repl budget batch data labels mir W S NI HB mh _ EM (e_mem e0 (e_calls e0)) (e_gen e0)) as LC.
  assert (ES : s = mab_init c repl data W (e_mem e0 (e_calls e0)) mh (e_gen e0)).
  { destruct (mab_fuel W (s_nb c) (length data)); cbn [mab_loop] in EL; rewrite (proj2 (Nat.ltb_ge 5 (length (ms_cand _)))) in EL by (rewrite LC; lia); now injection EL as <-. }
  assert (SQ : sres_q out = ms_q s) by (rewrite EO; destruct (xlt _ _); reflexivity). rewrite SQ, ES. reflexivity.
Qed.

(** Every feature with thresholds has the same number of them. *)
Lemma arm_count_linear W B E : (forall f, f < W -> E f = [] \/ length (E f) = B) -> arm_count W E = B * length (busy_features W E).
Proof.
  unfold arm_count, busy_features. assert (G : forall l, (forall f, In f l -> E f = [] \/ length (E f) = B) ->
    list_sum (map (fun f => length (E f)) l) = B * length (filter (fun f => match E f with [] => false | _ => true end) l)).
  { induction l as [|x l IH]; intros H; [cbn; lia|]. cbn [map filter]. change (list_sum (length (E x) :: map (fun f => length (E f)) l)) with (length (E x) + list_sum (map (fun f => length (E f)) l)).
    rewrite IH by (intros f I; apply H; now right). destruct (H x (or_introl eq_refl)) as [Z|Z].
    - rewrite Z. cbn [length]. lia.
    - rewrite Z. destruct (E x); cbn [length] in *; lia. }
  intros H. apply G. intros f I. apply in_seq in I. apply H. lia.
Qed.

Lemma chosen_some feats fs gen l gen' : choose_features feats fs gen = Ok (l, gen') -> incl l feats /\ length l <= most_feats fs (length feats).
Proof.
  assert (G : forall k r, choice_norepl feats k gen = Ok r -> incl (fst r) feats /\ length (fst r) <= Nat.min (length feats) k).
  { intros k r. unfold choice_norepl. destruct (length feats <? k) eqn:E; [discriminate|]. apply Nat.ltb_ge in E. intros H. injection H as <-.
    destruct (pick_k_spec k feats gen E) as [rest [PE LE]]. split; [|lia]. intros x I. eapply Permutation_in; [apply Permutation_sym; exact PE|]. apply in_or_app. now left. }
  unfold choose_features. destruct fs as [| |k|r|]; intros H.
  - injection H as <- <-. split; [apply incl_refl|cbn; lia].
  - destruct (G _ _ H) as [G1 G2]. cbn [fst] in *. split; auto. cbn [most_feats]. lia.
  - destruct (Z.ltb k 0); [discriminate|]. apply (G _ _ H).
  - destruct (Z.ltb _ 0); [discriminate|]. destruct (G _ _ H) as [G1 G2]. cbn [fst] in *. split; auto. cbn [most_feats]. lia.
  - discriminate.
Qed.

Lemma most_feats_mono fs F F' : F <= F' -> most_feats fs F <= most_feats fs F'.
Proof. intros H. destruct fs; cbn; try lia. now apply Nat.sqrt_up_le_mono. Qed.
Lemma most_feats_le fs F : most_feats fs F <= F.
Proof. destruct fs; cbn; try lia. destruct F; [cbn; lia|]. apply Nat.sqrt_up_le_lin. lia. Qed.

Section Cost.
Context (P : prng) (M : math) (c : tcfg) (a : targs) (e : env) (t : tree) (W : nat).
Context (TR : trainable c a W) (HB : built P M c a e t).
Notation D := (ta_data a).
Notation L := (ta_labels a).

Lemma node_run id nd : node_at t id nd -> nd_computed nd = true ->
  exists nd1 b e3 out bins e', node_solve M c nd1 b e3 = Ok (out, bins, e') /\ posed c D L nd nd1 /\ sres_q out = nd_queries nd.
Proof.
  intros A CP. pose proof (built_tinv P M c a e t HB (tr_rows _ _ _ TR)) as T. pose proof (ti_node _ _ _ _ _ _ _ _ T _ _ A) as N.
  destruct (nd_sf nd) as [s|] eqn:SF.
  - destruct (no_solved _ _ _ _ _ _ _ N s SF) as (f & v & x & PF & SV' & RX & nd1 & b & e3 & r0 & q & bins & e' & H1 & H2 & H3 & H4 & H5 & H6 & H7 & H8).
    exists nd1, b, e3, (Found f v r0 q), bins, e'. split; auto. split; [unfold posed; auto|]. now cbn.
  - destruct (no_failed _ _ _ _ _ _ _ N CP SF) as (nd1 & b & e3 & q & bins & e' & H1 & H2 & H3 & H4 & H5 & H6).
    exists nd1, b, e3, (NoSplit q), bins, e'. split; auto. split; [unfold posed; auto|]. now cbn.
Qed.

Lemma node_busy id nd E : bins_ok c -> node_at t id nd -> nd_computed nd = true ->
  (forall f, f < length (nd_feats nd) -> candidates (tc_bin c) (nbins (node_cfg c nd (node_bins c nd) (mab_measure c)) (node_data a nd)) (nd_minmax nd) (node_data a nd) f (E f)) ->
  length (busy_features (length (nd_feats nd)) E) = length (filter (scanned c a (nd_idcs nd)) (nd_feats nd)).
Proof.
  intros BO A CP HC. pose proof (built_tinv P M c a e t HB (tr_rows _ _ _ TR)) as T.
  pose proof (ti_node _ _ _ _ _ _ _ _ T _ _ A) as N. pose proof (no_elig _ _ _ _ _ _ _ N CP) as EG.
  unfold busy_features. apply filter_positions. intros f s Es. cbn [Nat.add]. apply (threshold_scanned c a); auto; [apply EG| |].
  - apply (node_thresholds M c a nd f s (E f) N Es). apply HC. apply nth_error_Some. congruence.
  - pose proof (mm_spec _ _ _ (no_mm _ _ _ _ _ _ _ N)) as MM. destruct (tc_minmax c) as [[mn mx]|]; auto. destruct MM as [_ MI]. apply MI. eapply nth_error_In; eauto.
Qed.

Lemma node_full id nd : tc_solver c = MAB -> tc_repl c = false -> 1 <= tc_batch c -> bins_ok c -> node_at t id nd -> nd_computed nd = true ->
  nd_queries nd <= full_price c a (nd_idcs nd) (nd_feats nd).
Proof.
  intros SV RP B1 BO A CP. pose proof (built_tinv P M c a e t HB (tr_rows _ _ _ TR)) as T.
  pose proof (ti_node _ _ _ _ _ _ _ _ T _ _ A) as N. pose proof (no_elig _ _ _ _ _ _ _ N CP) as EG.
  destruct (node_run id nd A CP) as (nd1 & b & e3 & out & bins & e' & H & PO & <-).
  destruct (solve_mab_eq M c a nd nd1 b e3 N PO SV) as [eps EQ]. rewrite EQ, RP in H. apply rbind_ok in H. destruct H as [[out' e1'] [H1 H2]]. cbn [fst snd] in H2.
  assert (EO : out' = out) by congruence. subst out'. clear H2.
  pose proof (node_solvable M c a W TR nd (node_bins c nd) (mab_measure c) N (built_dd P M c a e t W TR HB _ _ A) (or_intror eq_refl) (bins_from_ok c a nd BO EG)) as S.
  destruct (mab_queries_norepl _ _ _ _ _ _ _ _ _ _ _ _ S B1 H1) as [E [HC HQ]]. unfold full_price.
  rewrite <- (node_busy id nd E BO A CP HC). unfold node_data in HQ. rewrite map_length in HQ. exact HQ.
Qed.

Lemma node_batch id nd : tc_solver c = MAB -> tc_class c = true -> tc_bin c = LINEAR -> 1 <= tc_batch c -> bins_ok c -> ranges_cover c a -> node_at t id nd -> nd_computed nd = true ->
  nd_queries nd = batch_price c a (nd_idcs nd) (nd_feats nd).
Proof.
  intros SV IC BT B1 BO RC A CP. pose proof (built_tinv P M c a e t HB (tr_rows _ _ _ TR)) as T.
  pose proof (ti_node _ _ _ _ _ _ _ _ T _ _ A) as N. pose proof (no_elig _ _ _ _ _ _ _ N CP) as EG.
  destruct (node_run id nd A CP) as (nd1 & b & e3 & out & bins & e' & H & PO & <-).
  destruct (solve_mab_eq M c a nd nd1 b e3 N PO SV) as [eps EQ]. rewrite EQ in H. apply rbind_ok in H. destruct H as [[out' e1'] [H1 H2]]. cbn [fst snd] in H2.
  assert (EO : out' = out) by congruence. subst out'. clear H2.
  pose proof (node_solvable M c a W TR nd (node_bins c nd) (mab_measure c) N (built_dd P M c a e t W TR HB _ _ A) (or_intror eq_refl) (bins_from_ok c a nd BO EG)) as S.
  destruct (mab_finished _ _ _ _ _ _ _ _ _ _ _ _ _ S B1 H1) as [E [_ [_ [_ [_ [_ [HC _]]]]]]].
  set (F := length (nd_feats nd)) in *. set (sc := node_cfg c nd (node_bins c nd) (mab_measure c)) in *.
  assert (KB : length (busy_features F E) = length (filter (scanned c a (nd_idcs nd)) (nd_feats nd))) by (apply (node_busy id nd E BO A CP); exact HC).
  assert (NB : nbins sc (node_data a nd) = bins_at c (nd_idcs nd)) by (unfold nbins, sc; cbn; rewrite BT; reflexivity).
  assert (AC : arm_count F E = bins_at c (nd_idcs nd) * length (busy_features F E)).
  { apply arm_count_linear. intros f Hf. pose proof (HC f Hf) as C. unfold sc in C at 1. cbn [s_bin node_cfg] in C. rewrite BT, NB in C. cbn [candidates] in C. destruct C as (lo & hi & _ & [[_ Z]|[_ Z]]); [auto|].
    right. rewrite Z, map_length, seq_length. reflexivity. }
  unfold batch_price. rewrite <- KB, <- AC. destruct (5 <? arm_count F E) eqn:L5.
  - apply Nat.ltb_lt in L5. replace (length (nd_idcs nd)) with (length (node_data a nd)) by apply map_length.
    eapply (mab_one_round M sc eps (tc_repl c) b (tc_batch c) (node_data a nd) (node_labels a nd) 0%Qc F e3 out e1' E S B1 IC BT); [| |exact HC|exact L5|exact H1].
    + intros f lo hi r Hf RG I. unfold sc in RG. cbn [node_cfg s_minmax] in RG. unfold node_data in I. apply in_map_iff in I. destruct I as [i [<- I]].
      destruct (nth_error (nd_feats nd) f) as [s|] eqn:Es; [|apply nth_error_None in Es; unfold F in Hf; lia].
      rewrite (nth_error_nth _ _ 0%Qc (map_nth_error (cell D i) _ _ Es)).
      pose proof (mm_spec _ _ _ (no_mm _ _ _ _ _ _ _ N)) as MM. unfold ranges_cover in RC. destruct (tc_minmax c) as [[mn mx]|].
      * destruct MM as [EM MI]. rewrite EM in RG. cbn [range_of] in RG. destruct RG as [_ RG]. rewrite nth_error_map, Es in RG. cbn in RG. injection RG as <-.
        destruct (MI s (nth_error_In _ _ Es)) as [_ L2]. apply (RC i s).
        -- apply (no_rows _ _ _ _ _ _ _ N). exact I.
        -- destruct (no_choice _ _ _ _ _ _ _ N) as (g & g' & EC). apply (proj1 (chosen_some _ _ _ _ _ EC)). eapply nth_error_In; eauto.
        -- now apply nth_error_nth'.
      * rewrite MM in RG. cbn [range_of] in RG. destruct RG as [_ [_ G]]. apply G. unfold feature_values, node_data. rewrite map_map. apply in_map_iff. exists i. split; auto.
        now rewrite (nth_error_nth _ _ 0%Qc (map_nth_error (cell D i) _ _ Es)).
    + destruct EG as [_ [_ VAR]]. destruct VAR as (x & y & Ix & Iy & NE). unfold node_labels.
      assert (ND : NoDup [x; y]) by (constructor; [intros [Z|[]]; now apply NE|constructor; [easy|constructor]]).
      apply (NoDup_incl_length ND). intros w [<-|[<-|[]]]; now apply nodup_In.
  - apply Nat.ltb_ge in L5. apply (mab_idle _ _ _ _ _ _ _ _ _ _ _ _ _ _ S B1 HC L5 H1).
Qed.

Definition queries_at (id : nat) : nat := match nth_error (t_nodes t) id with Some nd => nd_queries nd | None => 0 end.
Lemma searched_nodes : exists ids, NoDup ids /\
    (forall id, In id ids -> exists nd, node_at t id nd /\ nd_computed nd = true) /\ (forall id, In id ids -> may_split c a t id) /\
    t_queries t = list_sum (map queries_at ids) /\
    (ta_budget a = None -> tc_max_leaves c <> Some (length (t_leaves t)) -> forall id, may_split c a t id -> In id ids).
Proof.
  pose proof (built_tinv P M c a e t HB (tr_rows _ _ _ TR)) as T.
  exists (filter (fun id => match nth_error (t_nodes t) (id - 0) with Some nd => nd_computed nd | None => false end) (seq 0 (length (t_nodes t)))).
  split; [apply NoDup_filter, seq_NoDup|]. split; [|split; [|split]].
  - intros id I. apply filter_In in I. destruct I as [_ I]. rewrite Nat.sub_0_r in I. destruct (nth_error (t_nodes t) id) as [nd|] eqn:A; [|discriminate I]. eauto.
  - intros id I. apply filter_In in I. destruct I as [_ I]. rewrite Nat.sub_0_r in I. destruct (nth_error (t_nodes t) id) as [nd|] eqn:A; [|discriminate I].
    exists nd. split; auto. rewrite (rows_of t id nd A). apply (no_elig _ _ _ _ _ _ _ (ti_node _ _ _ _ _ _ _ _ T _ _ A) I).
  - rewrite (ti_queries _ _ _ _ _ _ _ _ T), (sum_pick nd_queries nd_computed (t_nodes t) 0).
    + f_equal. apply map_ext_in. intros id I. rewrite Nat.sub_0_r. reflexivity.
    + intros nd I Z. apply In_nth_error in I. destruct I as [id A]. apply (no_fresh _ _ _ _ _ _ _ (ti_node _ _ _ _ _ _ _ _ T _ _ A) Z).
  - intros BN NF id (nd & A & E1 & E2 & E3). apply filter_In. rewrite Nat.sub_0_r. split; [apply in_seq; split; [lia|]; cbn; apply nth_error_Some; unfold node_at in A; congruence|].
    assert (Z : nth_error (t_nodes t) id = Some nd) by exact A. rewrite Z. rewrite (rows_of t id nd A) in *. pose proof (ti_node _ _ _ _ _ _ _ _ T _ _ A) as N.
    destruct (nd_left nd) as [l|] eqn:LF.
    + destruct (ti_inner _ _ _ _ _ _ _ _ T _ _ A) as (l' & r & nl & nr & s & v & x & I1 & I2 & I3 & I4 & I4' & I5 & I6 & I7 & I8 & I9 & I10 & I11 & _); [congruence|].
      destruct (nd_computed nd) eqn:C; auto. destruct (no_fresh _ _ _ _ _ _ _ N C). congruence.
    + assert (IL : In id (t_leaves t)) by (apply (ti_leaves _ _ _ _ _ _ _ _ T); eauto).
      destruct (built_loop P M c a e t HB (tr_rows _ _ _ TR)) as (t0 & e0 & d & fuel & e1 & HN & HL & T0 & _).
      destruct (new_spec _ _ _ _ _ _ HN) as (nd0 & e2 & ENN & ET & _).
      assert (FL : flags c (length L) (start_tree t0 d)).
      { split; [rewrite ET; reflexivity|]. intros j x Ax _ Sx. rewrite ET in Ax. unfold node_at in Ax. destruct j as [|[|j]]; cbn in Ax; try discriminate Ax. injection Ax as <-.
        unfold node_new in ENN. apply rbind_ok in ENN. destruct ENN as [[fs g] [_ Q]]. apply rbind_ok in Q. destruct Q as [_ [_ Q]]. apply rbind_ok in Q. destruct Q as [dd [_ Q]].
        apply rbind_ok in Q. destruct Q as [ll [_ Q]]. apply rbind_ok in Q. destruct Q as [mm [_ Q]]. apply rbind_ok in Q. destruct Q as [cs [_ Q]]. apply ok_pair_inv in Q. destruct Q as [<- _]. discriminate Sx. }
      assert (BS : t_budget (start_tree t0 d) = None) by (rewrite ET; cbn; auto).
      destruct (loop_search M c D L _ _ _ (length L) fuel _ _ _ _ T0 FL BS HL) as [X|X]; [contradiction|].
      destruct (X id IL) as [nd' [A' [_ HH]]]. assert (nd' = nd) by (unfold node_at in *; congruence). subst nd'.
      assert (CC : check_constraints c nd = Ok true) by (apply (constraints_complete M c a nd N LF); split; auto).
      destruct HH as [[HH|[C _]]|[C _]]; auto. congruence.
Qed.

(** *** The exact price of a classification tree *)
Lemma bandit_tree_queries : tc_solver c = MAB -> tc_class c = true -> tc_bin c = LINEAR -> 1 <= tc_batch c -> bins_ok c -> ranges_cover c a ->
  exists ids, NoDup ids /\ (forall id, In id ids -> may_split c a t id) /\
    t_queries t = list_sum (map (fun id => batch_price c a (node_rows t id) (node_feats t id)) ids) /\
    (ta_budget a = None -> tc_max_leaves c <> Some (length (t_leaves t)) -> forall id, may_split c a t id -> In id ids).
Proof.
  intros SV IC BT B1 BO RC. destruct searched_nodes as (ids & ND & CP & MS & Q & CO). exists ids. ands; auto. rewrite Q. apply list_sum_ext. intros id I.
  destruct (CP id I) as (nd & A & C). unfold queries_at, node_feats. rewrite (rows_of t id nd A). unfold node_at in A. rewrite A. now apply (node_batch id nd).
Qed.

(** *** Never more than reading every row *)
Lemma bandit_tree_full : tc_solver c = MAB -> tc_repl c = false -> 1 <= tc_batch c -> bins_ok c ->
  exists ids, NoDup ids /\ (forall id, In id ids -> may_split c a t id) /\
    t_queries t <= list_sum (map (fun id => full_price c a (node_rows t id) (node_feats t id)) ids).
Proof.
  intros SV RP B1 BO. destruct searched_nodes as (ids & ND & CP & MS & Q & CO). exists ids. ands; auto. rewrite Q. clear Q ND MS CO.
  induction ids as [|id ids IH]; [cbn; lia|]. cbn [map]. rewrite !list_sum_cons. apply Nat.add_le_mono; [|apply IH; intros; apply CP; now right].
  destruct (CP id (or_introl eq_refl)) as (nd & A & C). unfold queries_at, node_feats. rewrite (rows_of t id nd A). unfold node_at in A. rewrite A. now apply (node_full id nd).
Qed.

(** *** Counting nodes by level *)
Definition below (id : nat) : list nat := match nth_error (t_nodes t) id with Some nd => (match nd_left nd with Some l => [l] | None => [] end) ++ (match nd_right nd with Some r => [r] | None => [] end) | None => [] end.
Fixpoint level (d : nat) : list nat := match d with 0 => [0] | S d => flat_map below (level d) end.
Lemma level_length d : length (level d) <= 2 ^ d.
Proof.
  induction d as [|d IH]; [cbn; lia|]. cbn [level]. assert (G : forall l, length (flat_map below l) <= 2 * length l).
  { induction l as [|x l IH']; cbn [flat_map length]; [lia|]. rewrite app_length. assert (length (below x) <= 2); [|lia].
    unfold below. destruct (nth_error _ _) as [nd|]; [|cbn; lia]. destruct (nd_left nd), (nd_right nd); cbn; lia. }
  specialize (G (level d)). cbn [Nat.pow]. lia.
Qed.
Lemma level_in id d : at_level t id d -> In id (level d).
Proof.
  induction 1 as [nd A|p pn id d AL IH A CH]; [now left|]. cbn [level]. apply in_flat_map. exists p. split; auto. unfold below. unfold node_at in A. rewrite A. apply in_or_app.
  destruct CH as [->| ->]; [left|right]; now left.
Qed.
Lemma levels_length D' : length (flat_map level (seq 0 D')) <= 2 ^ D' - 1.
Proof.
  induction D' as [|k IH]; [cbn; lia|]. rewrite seq_S, flat_map_app, app_length. cbn [Nat.add flat_map]. rewrite app_nil_r. pose proof (level_length k). cbn [Nat.pow].
  assert (1 <= 2 ^ k) by (apply Nat.neq_0_lt_0, Nat.pow_nonzero; lia). lia.
Qed.
Lemma few_searched ids : NoDup ids -> (forall id, In id ids -> may_split c a t id) -> length ids <= most_inner (tc_max_depth c) (S (2 * t_splits t)) /\ length ids <= S (2 * t_splits t).
Proof.
  intros ND MS. pose proof (proj2 (proj2 (fitted_shape P M c a e t HB (tr_rows _ _ _ TR)))) as NN.
  assert (B : length ids <= S (2 * t_splits t)).
  { rewrite <- NN, <- (seq_length (length (t_nodes t)) 0). apply NoDup_incl_length; auto. intros id I. destruct (MS id I) as (nd & A & _). apply in_seq. split; [lia|]. cbn. apply nth_error_Some. unfold node_at in A. congruence. }
  split; auto. unfold most_inner. destruct (tc_max_depth c) as [| |z] eqn:Z; auto.
  etransitivity; [|apply levels_length]. apply NoDup_incl_length; auto. intros id I. destruct (MS id I) as (nd & A & BD & _).
  destruct (fitted_depth P M c a e t HB (tr_rows _ _ _ TR)) as [FD _]. destruct (FD id nd A) as [AL _]. apply in_flat_map. exists (nd_depth nd). split; [|now apply level_in].
  unfold below_depth in BD. rewrite Z in BD. apply in_seq. lia.
Qed.

Lemma batch_price_le ids : (forall id, In id ids -> may_split c a t id) ->
  list_sum (map (fun id => batch_price c a (node_rows t id) (node_feats t id)) ids) <= tc_batch c * most_feats (tc_fsub c) (length (train_feats a)) * length ids.
Proof.
  intros MS. pose proof (built_tinv P M c a e t HB (tr_rows _ _ _ TR)) as T. induction ids as [|id ids IH]; [cbn; lia|]. cbn [map length]. rewrite list_sum_cons.
  specialize (IH (fun i I => MS i (or_intror I))). destruct (MS id (or_introl eq_refl)) as (nd & A & _).
  pose proof (ti_node _ _ _ _ _ _ _ _ T _ _ A) as N. destruct (no_choice _ _ _ _ _ _ _ N) as (g & g' & EC). destruct (chosen_some _ _ _ _ _ EC) as [_ LF].
  unfold node_feats at 1. assert (A' : nth_error (t_nodes t) id = Some nd) by exact A. rewrite A'.
  assert (G : batch_price c a (node_rows t id) (nd_feats nd) <= tc_batch c * most_feats (tc_fsub c) (length (train_feats a))); [|lia].
  unfold batch_price. destruct (5 <? _); [|lia]. apply Nat.mul_le_mono; [lia|]. etransitivity; [|exact LF]. clear. induction (nd_feats nd) as [|x l IH]; cbn; [lia|]. destruct (scanned _ _ _ _); cbn; lia.
Qed.

(** *** A price that does not depend on the number of rows *)
Lemma bandit_tree_bound : tc_solver c = MAB -> tc_class c = true -> tc_bin c = LINEAR -> 1 <= tc_batch c -> bins_ok c -> ranges_cover c a ->
  t_queries t <= tc_batch c * most_feats (tc_fsub c) (length (train_feats a)) * S (2 * t_splits t) /\
  (forall z, tc_max_depth c = DFin z -> t_queries t <= tc_batch c * most_feats (tc_fsub c) (length (train_feats a)) * (2 ^ Z.to_nat z - 1)) /\
  (forall m, tc_max_leaves c = Some m -> t_queries t <= tc_batch c * most_feats (tc_fsub c) (length (train_feats a)) * (2 * m - 1)).
Proof.
  intros SV IC BT B1 BO RC. destruct (bandit_tree_queries SV IC BT B1 BO RC) as (ids & ND & MS & Q & _). pose proof (batch_price_le ids MS) as LE. rewrite <- Q in LE.
  destruct (few_searched ids ND MS) as [F1 F2]. ands.
  - etransitivity; [exact LE|]. now apply Nat.mul_le_mono_l.
  - intros z Z. rewrite Z in F1. cbn [most_inner] in F1. etransitivity; [exact LE|]. now apply Nat.mul_le_mono_l.
  - intros m EM. pose proof (fitted_leaf_limit P M c a e t HB (tr_rows _ _ _ TR) m EM) as LL. pose proof (proj1 (proj2 (fitted_shape P M c a e t HB (tr_rows _ _ _ TR)))) as NL.
    etransitivity; [exact LE|]. apply Nat.mul_le_mono_l. lia.
Qed.

(** *** The exhaustive search reads every row at the root *)
Lemma exact_tree_floor : tc_solver c = EXACT -> bins_ok c -> ta_budget a = None -> tc_max_leaves c = None -> may_split c a t 0 ->
  full_price c a (node_rows t 0) (node_feats t 0) <= t_queries t.
Proof.
  intros SV BO BN ML R. destruct searched_nodes as (ids & ND & CP & MS & Q & CO). rewrite Q. assert (I : In 0 ids) by (apply CO; auto; congruence).
  assert (G : queries_at 0 <= list_sum (map queries_at ids)).
  { clear -I. induction ids as [|x l IH]; [destruct I|]. cbn [map]. rewrite list_sum_cons. destruct I as [->|I]; [lia|]. specialize (IH I). lia. }
  etransitivity; [|exact G]. destruct (CP 0 I) as (nd & A & C). unfold queries_at, node_feats, full_price. rewrite (rows_of t 0 nd A). assert (A' := A). unfold node_at in A'. rewrite A'.
  rewrite (node_queries P M c a e t W TR HB 0 nd SV BO A C). lia.
Qed.
End Cost.

(** The fitted tree is the recursive tree. *)
From Coq Require Import List Arith Bool ZArith QArith Qcanon Lia Permutation.
From Verif Require Import Base Num Rng Histogram Utils Criteria Solvers Tree Spec SolverSpec TreeSpec TrainSpec NestSpec GrowSpec ListFacts NumFacts ExactFacts ExactProps TreeFacts TreeThms TreeTotal TreeMore TrainFacts ColSim NestThms NestTree GrowFacts.
Import ListNotations.
Local Open Scope nat_scope.

Lemma NoDup_app_intro {A} (l l' : list A) : NoDup l -> NoDup l' -> (forall x, In x l -> In x l' -> False) -> NoDup (l ++ l').
Proof.
  induction 1 as [|x l H N IH]; cbn; auto. intros N' F. constructor; [|apply IH; auto; intros y Y1 Y2; apply (F y); auto].
  intros I. apply in_app_or in I. destruct I; auto. eapply F; eauto; now left.
Qed.
(** ** The recursive tree is unique *)
Section Rec.
Context (M : math) (c : tcfg) (a : targs) (NR : tc_bin c = LINEAR \/ tc_bin c = IDENTITY).
Lemma best_cut_unique I s v s' v' : best_cut M c a I s v -> best_cut M c a I s' v' -> s' = s /\ v' = v.
Proof.
  intros (E & f & b & H1 & H2 & H3 & H4 & H5) (E' & f' & b' & K1 & K2 & K3 & K4 & K5).
  assert (EE : forall g x, nth_error (train_feats a) g = Some x -> E' g = E g) by (intros g x G; eapply thresholds_unique; eauto).
  rewrite (EE _ _ K2) in K3. destruct (H5 _ _ _ _ K2 K3) as [LE T].
  assert (H3' : nth_error (E' f) b = Some v) by (rewrite (EE _ _ H2); auto). destruct (K5 _ _ _ _ H2 H3') as [LE' T'].
  assert (Q : split_change M c a I s' v' = split_change M c a I s v) by (apply Qcle_antisym; auto).
  specialize (T Q). specialize (T' (eq_sym Q)). unfold earlier_or_same in *. assert (f' = f /\ b' = b) by lia. destruct H as [-> ->]. split; congruence.
Qed.
Lemma recursive_unique d I sh sh' : recursive M c a d I sh -> recursive M c a d I sh' -> sh' = sh.
Proof.
  intros H. revert sh'. induction H as [d I s v l r H1 H2 H3 Hl IHl Hr IHr|d I H]; intros sh' K; inversion K; subst.
  - destruct (best_cut_unique I s v s0 v0) as [-> ->]; auto. f_equal; auto.
  - exfalso. eauto 6.
  - exfalso. eauto 6.
  - reflexivity.
Qed.
Lemma recursive_rows d I sh : recursive M c a d I sh -> rows_in sh = I.
Proof. now intros []. Qed.
Lemma recursive_leaves d I sh : recursive M c a d I sh -> forall J, In J (leaf_sets sh) -> incl J I.
Proof.
  induction 1 as [d I s v l r H1 H2 H3 Hl IHl Hr IHr|d I H]; cbn [leaf_sets]; intros J HJ.
  - apply in_app_or in HJ. destruct HJ as [HJ|HJ]; [specialize (IHl _ HJ)|specialize (IHr _ HJ)]; (eapply incl_tran; [eassumption|]); intros i Hi; apply filter_In in Hi; apply Hi.
  - destruct HJ as [<-|[]]. apply incl_refl.
Qed.
End Rec.

(** ** The tree as a shape *)
Lemma shape_unique t id sh sh' : has_shape t id sh -> has_shape t id sh' -> sh' = sh.
Proof.
  intros H. revert sh'. induction H as [id nd A E1 E2|id nd l r s v sl sr A E1 E2 E3 E4 Hl IHl Hr IHr]; intros sh' K; inversion K as [id' nd' A' K1 K2|id' nd' l' r' s' v' sl' sr' A' K1 K2 K3 K4 Kl Kr]; subst;
    assert (nd' = nd) by (unfold node_at in *; congruence); subst nd'; try congruence.
  assert (l' = l) by congruence. assert (r' = r) by congruence. assert (s' = s) by congruence. assert (v' = v) by congruence. subst. f_equal; auto.
Qed.

Section Built.
Context (P : prng) (M : math) (c : tcfg) (a : targs) (e : env) (t : tree) (W : nat).
Context (TR : trainable c a W) (HB : built P M c a e t).
Notation D := (ta_data a).
Notation L := (ta_labels a).

Lemma node_rows_at id nd : node_at t id nd -> node_rows t id = nd_idcs nd.
Proof. unfold node_rows, node_at. now intros ->. Qed.
Lemma node_first nd nd0 b e0 f v r q bins e1 : tc_solver c = EXACT -> bins_ok c -> node_ok M c D L (train_feats a) (train_rows a) nd -> dd_fine (nd_dd nd) -> eligible c L nd -> posed c D L nd nd0 ->
  node_solve M c nd0 b e0 = Ok (Found f v r q, bins, e1) ->
  exists E s k, (forall f s, nth_error (nd_feats nd) f = Some s -> thresholds c a (nd_idcs nd) s (E f)) /\
     nth_error (nd_feats nd) f = Some s /\ nth_error (E f) k = Some v /\ r = Fin (split_change M c a (nd_idcs nd) s v) /\ (split_change M c a (nd_idcs nd) s v < 0)%Qc /\
     forall f' s' k' v', nth_error (nd_feats nd) f' = Some s' -> nth_error (E f') k' = Some v' ->
       (split_change M c a (nd_idcs nd) s v <= split_change M c a (nd_idcs nd) s' v')%Qc /\
       (split_change M c a (nd_idcs nd) s' v' = split_change M c a (nd_idcs nd) s v -> earlier_or_same f k f' k').
Proof.
  intros SV BO N DF EG PO H. rewrite (solve_exact_eq M c a nd nd0 b e0 N PO SV) in H. apply rbind_ok in H. destruct H as [[out' e1'] [H1 H2]]. cbn [fst snd] in H2.
  assert (EO : out' = Found f v r q) by congruence. subst out'. clear H2.
  pose proof (node_solvable M c a W TR nd (node_bins c nd) (tc_crit c) N DF (or_introl eq_refl) (bins_from_ok c a nd BO EG)) as S.
  destruct (exact_optimal _ _ _ _ S _ _ _ _ _ H1) as [E [HC RA]]. destruct RA as [Hf [k [Ek [-> [LT OPT]]]]].
  destruct (nth_error (nd_feats nd) f) as [s|] eqn:Es; [|apply nth_error_None in Es; lia]. exists E, s, k. rewrite (node_change M c a nd _ f s v N Es) in *.
  ands; auto.
  - intros g x Eg. apply (node_thresholds M c a nd g x (E g) N Eg). apply HC. apply nth_error_Some. congruence.
  - intros f' s' k' v' Es' Ek'. assert (Hf' : f' < length (nd_feats nd)) by (apply nth_error_Some; congruence).
    destruct (OPT f' k' v' Hf' Ek') as [LE TI]. rewrite (node_change M c a nd _ f' s' v' N Es') in LE, TI. split; [exact LE|exact TI].
Qed.
Lemma all_feats nd : tc_fsub c = FSNone -> node_ok M c D L (train_feats a) (train_rows a) nd -> nd_feats nd = train_feats a.
Proof. intros F N. destruct (no_choice _ _ _ _ _ _ _ N) as (g & g' & H). rewrite F in H. cbn in H. congruence. Qed.
Lemma labels_pos : 0 < length L.
Proof. pose proof (tr_rows _ _ _ TR) as RN. pose proof (tr_rows_in _ _ _ TR) as RI. destruct (train_rows a) as [|i l]; [contradiction|]. specialize (RI i (or_introl eq_refl)). lia. Qed.

Lemma inner_cut id nd : tc_solver c = EXACT -> bins_ok c -> tc_fsub c = FSNone -> node_at t id nd -> nd_left nd <> None ->
  exists l r nl nr s v, nd_left nd = Some l /\ nd_right nd = Some r /\ id < l /\ id < r /\ node_at t l nl /\ node_at t r nr /\ nd_depth nl = S (nd_depth nd) /\ nd_depth nr = S (nd_depth nd) /\
    nd_sf nd = Some s /\ nd_sv nd = Some v /\ nd_idcs nl = goes_left a s v (nd_idcs nd) /\ nd_idcs nr = goes_right a s v (nd_idcs nd) /\
    may_split c a (nd_depth nd) (nd_idcs nd) /\ best_cut M c a (nd_idcs nd) s v /\ worth M c a (nd_idcs nd) s v.
Proof.
  intros SV BO FS A H. pose proof (built_tinv P M c a e t HB (tr_rows _ _ _ TR)) as T.
  destruct (ti_inner _ _ _ _ _ _ _ _ T _ _ A H) as (l & r & nl & nr & s & v & x & I1 & I2 & I3 & I4 & I4' & I5 & I6 & I7 & I8 & I9 & I10 & I11 & I12 & I13 & I14 & I15 & I16 & I17 & EG).
  pose proof (ti_node _ _ _ _ _ _ _ _ T _ _ A) as N. pose proof (all_feats nd FS N) as AF.
  destruct (no_solved _ _ _ _ _ _ _ N s I11) as (f & v' & x' & PF & SV' & RX' & SS). assert (v' = v) by congruence. assert (x' = x) by congruence. subst v' x'.
  destruct SS as (nd0 & b & e0 & r0 & q & bins & e' & H1 & H2 & H3 & H4 & H5 & H6 & H7 & H8).
  destruct (node_first nd nd0 b e0 f v r0 q bins e' SV BO N (built_dd P M c a e t W TR HB _ _ A) EG (conj H2 (conj H3 (conj H4 H8))) H1) as (E & s' & k & HT & Es & Ek & Er & LT & OPT).
  assert (s' = s) by congruence. subst s'. rewrite AF in *.
  exists l, r, nl, nr, s, v. ands; auto.
  - exists E, f, k. auto.
  - assert (X : x = Fin (split_change M c a (nd_idcs nd) s v * share (nd_idcs nd) (length (train_rows a)))%Qc).
    { rewrite H6, Er. cbn. now rewrite (no_prop _ _ _ _ _ _ _ N). }
    unfold worth. cbn zeta. split.
    + rewrite X in I17. cbn in I17. now apply qlt_spec.
    + destruct (proj2 (built_sound P M c a e t HB (tr_rows _ _ _ TR)) _ _ A) as [_ PS]. destruct (PS H) as [_ [y [RY WY]]]. assert (y = x) by congruence. subst y. rewrite X in WY. unfold weighted in WY. rewrite (no_n _ _ _ _ _ _ _ N) in WY.
      cbn [xmul xdiv] in WY. assert (ZL : qeq (Nq (length L)) 0 = false) by (apply qeq_false; apply Nq_neq0; apply labels_pos). rewrite ZL in WY. cbn [xlt] in WY. apply qlt_spec in WY.
      unfold share at 2. eapply Qcle_lt_trans; [|exact WY]. match goal with |- (?x <= ?y)%Qc => assert (Z : x = y) by (unfold Qcdiv; ring); rewrite Z; apply Qcle_refl end.
Qed.
Lemma leaf_final id nd : exhaustive c a -> node_at t id nd -> nd_left nd = None ->
  ~ (may_split c a (nd_depth nd) (nd_idcs nd) /\ exists s v, best_cut M c a (nd_idcs nd) s v /\ worth M c a (nd_idcs nd) s v).
Proof.
  intros (SV & NR & BO & FS & ML & BN) A LF [[M1 [M2 M3]] (s & v & (E & f & b & H1 & H2 & H3 & H4 & H5) & WO)]. pose proof (built_tinv P M c a e t HB (tr_rows _ _ _ TR)) as T. pose proof (ti_node _ _ _ _ _ _ _ _ T _ _ A) as N.
  assert (IL : In id (t_leaves t)) by (apply (ti_leaves _ _ _ _ _ _ _ _ T); eauto).
  assert (RA := node_rows_at _ _ A).
  assert (NF : tc_max_leaves c <> Some (length (t_leaves t))) by congruence. assert (M2' : tc_min_split c < length (node_rows t id)) by (rewrite RA; exact M2). assert (M3' : varied (labels_at L (node_rows t id))) by (rewrite RA; exact M3).
  destruct (fitted_exhausted P M c a e t W TR HB id nd SV BO BN NF IL A M1 M2' M3') as (E' & K1 & K2). rewrite RA in *. rewrite (all_feats nd FS N) in *.
  assert (EE : E f = E' f) by (eapply thresholds_unique; eauto). rewrite EE in H3. specialize (K2 f s v H2 (nth_error_In _ _ H3)). cbn zeta in K2. destruct WO as [W1 W2]. rewrite (no_prop _ _ _ _ _ _ _ N) in K2. change (Nq (length (nd_idcs nd)) / Nq (length (train_rows a)))%Qc with (share (nd_idcs nd) (length (train_rows a))) in K2.
  change (Nq (length (nd_idcs nd)) / Nq (length L))%Qc with (share (nd_idcs nd) (length L)) in K2. rewrite (Qcmult_comm (share _ _) (split_change _ _ _ _ _ _)) in K2.
  destruct K2 as [K2|[K2|K2]]; [exact (Qclt_not_le _ _ H4 K2)|exact (Qclt_not_le _ _ W1 K2)|exact (Qclt_not_le _ _ W2 K2)].
Qed.
Lemma node_recursive : exhaustive c a -> forall k id nd, length (t_nodes t) - id <= k -> node_at t id nd -> exists sh, has_shape t id sh /\ recursive M c a (nd_depth nd) (nd_idcs nd) sh.
Proof.
  intros EX. induction k as [|k IH]; intros id nd LE A.
  - assert (id < length (t_nodes t)) by (apply nth_error_Some; unfold node_at in A; congruence). lia.
  - pose proof (built_tinv P M c a e t HB (tr_rows _ _ _ TR)) as T. destruct (nd_left nd) as [l0|] eqn:LF.
    + destruct EX as (SV & NR & BO & FS & ML & BN).
      destruct (inner_cut id nd SV BO FS A) as (l & r & nl & nr & s & v & E1 & E2 & G1 & G2 & A1 & A2 & D1 & D2 & F1 & F2 & R1 & R2 & MS & BC & WO); [congruence|].
      destruct (IH l nl) as (sl & S1 & S2); auto; [lia|]. destruct (IH r nr) as (sr & S3 & S4); auto; [lia|].
      exists (Fork (nd_idcs nd) s v sl sr). split; [eapply hs_fork; eauto|]. rewrite D1, R1 in S2. rewrite D2, R2 in S4. now constructor.
    + exists (Leaf (nd_idcs nd)). destruct (ti_leaf _ _ _ _ _ _ _ _ T _ _ A LF) as [RN _]. split; [now constructor|]. constructor. eapply leaf_final; eauto.
Qed.
Theorem fitted_recursive : exhaustive c a -> exists sh, has_shape t 0 sh /\ recursive M c a 0 (train_rows a) sh.
Proof.
  intros EX. pose proof (built_tinv P M c a e t HB (tr_rows _ _ _ TR)) as T. destruct (ti_root _ _ _ _ _ _ _ _ T) as [r [R [R1 [R2 _]]]].
  destruct (node_recursive EX _ 0 r (le_n _) R) as (sh & S1 & S2). exists sh. rewrite R1, R2 in S2. auto.
Qed.

(** The leaves of the tree are the leaves of its shape. *)
Lemma shape_leaf id sh : has_shape t id sh -> forall I, In I (leaf_sets sh) -> exists leaf, In leaf (t_leaves t) /\ node_rows t leaf = I.
Proof.
  pose proof (built_tinv P M c a e t HB (tr_rows _ _ _ TR)) as T.
  induction 1 as [id nd A E1 E2|id nd l r s v sl sr A E1 E2 E3 E4 Hl IHl Hr IHr]; cbn [leaf_sets]; intros I HI.
  - destruct HI as [<-|[]]. exists id. split; [apply (ti_leaves _ _ _ _ _ _ _ _ T); eauto|]. now apply node_rows_at.
  - apply in_app_or in HI. destruct HI; eauto.
Qed.
Lemma node_shape : (exists sh, has_shape t 0 sh) -> forall id nd, node_at t id nd -> exists top sh, has_shape t 0 top /\ has_shape t id sh /\ incl (leaf_sets sh) (leaf_sets top).
Proof.
  intros [top HT]. pose proof (built_tinv P M c a e t HB (tr_rows _ _ _ TR)) as T. induction id as [id IH] using lt_wf_ind. intros nd A.
  destruct (Nat.eq_dec id 0) as [->|NZ]; [exists top, top; ands; auto; apply incl_refl|].
  destruct (ti_parent _ _ _ _ _ _ _ _ T _ _ A) as (p & pn & P1 & P2 & P3 & P4); [lia|]. destruct (IH p P2 pn P3) as (tp & sh & K1 & K2 & K3).
  inversion K2 as [i n A0 E1 E2|i n l r s v sl sr A0 E1 E2 E3 E4 Hl Hr]; subst; assert (n = pn) by (unfold node_at in *; congruence); subst n; [destruct P4; congruence|].
  cbn [leaf_sets] in K3. destruct P4 as [P4|P4]; [exists tp, sl; assert (id = l) by congruence|exists tp, sr; assert (id = r) by congruence]; subst; ands; auto; (eapply incl_tran; [|exact K3]); intros J HJ; apply in_or_app; auto.
Qed.
Lemma leaf_shape sh leaf : has_shape t 0 sh -> In leaf (t_leaves t) -> In (node_rows t leaf) (leaf_sets sh).
Proof.
  intros HS IL. pose proof (built_tinv P M c a e t HB (tr_rows _ _ _ TR)) as T. apply (ti_leaves _ _ _ _ _ _ _ _ T) in IL. destruct IL as [nd [A LF]].
  destruct (node_shape (ex_intro _ _ HS) leaf nd A) as (top & s1 & K1 & K2 & K3). rewrite (shape_unique _ _ _ _ HS K1) in K3. apply K3.
  inversion K2 as [i n A0 E1 E2|i n l r s v sl sr A0 E1 E2 E3 E4 Hl Hr]; subst; assert (n = nd) by (unfold node_at in *; congruence); subst n; [|congruence]. rewrite (node_rows_at _ _ A). now left.
Qed.
Lemma child_parent p pn id : node_at t p pn -> nd_left pn = Some id \/ nd_right pn = Some id -> p < id /\ exists nd, node_at t id nd /\ nd_parent nd = Some p.
Proof.
  intros A H. pose proof (built_tinv P M c a e t HB (tr_rows _ _ _ TR)) as T.
  assert (SP : nd_left pn <> None). { destruct (nd_left pn) eqn:Z; [congruence|]. destruct (ti_leaf _ _ _ _ _ _ _ _ T _ _ A Z) as [Z2 _]. destruct H; congruence. }
  destruct (ti_inner _ _ _ _ _ _ _ _ T _ _ A SP) as (l & r & nl & nr & s & v & x & I1 & I2 & I3 & I4 & _ & I6 & I7 & I8 & I9 & _). destruct H as [H|H].
  - assert (id = l) by congruence. subst. eauto.
  - assert (id = r) by congruence. subst. eauto.
Qed.
Lemma desc_le u x : descends t u x -> u <= x.
Proof. induction 1 as [|p pn id D1 IH A Q]; auto. destruct (child_parent _ _ _ A Q). lia. Qed.
Lemma desc_compare u v x : descends t u x -> descends t v x -> descends t u v \/ descends t v u.
Proof.
  intros H. revert v. induction H as [nd A|p pn id D1 IH A Q]; intros v K; [auto|].
  inversion K as [nd0 A0|p' pn' id' K1 A' Q']; subst; [left; eapply desc_child; eauto|].
  destruct (child_parent _ _ _ A Q) as [_ (nd & B1 & B2)]. destruct (child_parent _ _ _ A' Q') as [_ (nd' & B1' & B2')]. assert (p' = p) by (unfold node_at in *; congruence). subst p'. auto.
Qed.
Lemma siblings_apart id nd l r x : node_at t id nd -> nd_left nd = Some l -> nd_right nd = Some r -> l <> r -> descends t l x -> descends t r x -> False.
Proof.
  intros A E1 E2 NE H K. destruct (child_parent _ _ _ A (or_introl E1)) as [G1 (nl & B1 & B2)]. destruct (child_parent _ _ _ A (or_intror E2)) as [G2 (nr & C1 & C2)].
  assert (X : forall u w, u <> w -> id < u -> (exists y, node_at t w y /\ nd_parent y = Some id) -> descends t u w -> False).
  { intros u w NU LT (y & Y1 & Y2) D1. inversion D1 as [n0 A0|p pn i D2 A0 Q]; subst; [congruence|]. destruct (child_parent _ _ _ A0 Q) as [_ (z & Z1 & Z2)]. assert (p = id) by (unfold node_at in *; congruence). subst p. apply desc_le in D2. lia. }
  destruct (desc_compare _ _ _ H K) as [Z|Z]; [apply (X l r)|apply (X r l)]; eauto.
Qed.
Lemma shape_ids id sh : has_shape t id sh -> exists ids, NoDup ids /\ map (node_rows t) ids = leaf_sets sh /\
  (forall x, In x ids <-> descends t id x /\ In x (t_leaves t)).
Proof.
  pose proof (built_tinv P M c a e t HB (tr_rows _ _ _ TR)) as T.
  assert (LV : forall x nd, node_at t x nd -> In x (t_leaves t) <-> nd_left nd = None).
  { intros x nd A. rewrite (ti_leaves _ _ _ _ _ _ _ _ T). split; [intros [y [Y1 Y2]]; unfold node_at in *; congruence|eauto]. }
  induction 1 as [id nd A E1 E2|id nd l r s v sl sr A E1 E2 E3 E4 Hl IHl Hr IHr].
  - exists [id]. split; [repeat constructor; intros []|]. split; [cbn; now rewrite (node_rows_at _ _ A)|]. intros x. split.
    + intros [<-|[]]. split; [eapply desc_here; eauto|]. now apply (LV id nd A).
    + intros [D1 IL]. left. induction D1 as [|p pn i D2 IH A2 Q]; auto. exfalso.
      destruct (nd_left pn) eqn:Z; [|destruct (ti_leaf _ _ _ _ _ _ _ _ T _ _ A2 Z); destruct Q; congruence].
      assert (G : forall y, descends t id y -> y = id). { induction 1 as [|p' pn' i' D3 IH3 A3 Q3]; auto. subst p'. assert (pn' = nd) by (unfold node_at in *; congruence). subst. destruct Q3; congruence. }
      apply G in D2. subst p. assert (pn = nd) by (unfold node_at in *; congruence). subst. congruence.
  - destruct IHl as (il & N1 & M1 & S1). destruct IHr as (ir & N2 & M2 & S2).
    assert (NE : l <> r). { destruct (ti_inner _ _ _ _ _ _ _ _ T _ _ A) as (l' & r' & nl & nr & s' & v' & x & I1 & I2 & I3 & I4 & I5 & _); congruence. }
    exists (il ++ ir). ands.
    + apply NoDup_app_intro; auto. intros x X1 X2. apply S1 in X1. apply S2 in X2. eapply (siblings_apart id nd l r x); eauto; tauto.
    + rewrite map_app. now rewrite M1, M2.
    + intros x. rewrite in_app_iff, S1, S2. split.
      * intros [[D1 IL]|[D1 IL]]; (split; auto); (eapply desc_trans; [|exact D1]); (eapply desc_child; [eapply desc_here; exact A|exact A|auto]).
      * intros [D1 IL]. assert (G : x = id \/ descends t l x \/ descends t r x).
        { clear IL. induction D1 as [|p pn i D2 IH A2 Q]; auto. right. destruct IH as [->|[IH|IH]].
          - assert (pn = nd) by (unfold node_at in *; congruence). subst pn. destruct (child_parent _ _ _ A Q) as [_ (y & Y1 & _)]. destruct Q as [Q|Q]; [left|right]; [assert (i = l) by congruence|assert (i = r) by congruence]; subst i; eapply desc_here; eauto.
          - left. eapply desc_child; eauto.
          - right. eapply desc_child; eauto. }
        destruct G as [->|G]; [apply (LV _ _ A) in IL; congruence|tauto].
Qed.
Lemma root_above x nd : node_at t x nd -> descends t 0 x.
Proof.
  pose proof (built_tinv P M c a e t HB (tr_rows _ _ _ TR)) as T. revert nd. induction x as [x IH] using lt_wf_ind. intros nd A.
  destruct (Nat.eq_dec x 0) as [->|NZ]; [eapply desc_here; eauto|]. destruct (ti_parent _ _ _ _ _ _ _ _ T _ _ A) as (p & pn & P1 & P2 & P3 & P4); [lia|]. eapply desc_child; eauto.
Qed.
Lemma shape_leaves sh : has_shape t 0 sh -> Permutation (map (node_rows t) (t_leaves t)) (leaf_sets sh).
Proof.
  intros HS. pose proof (built_tinv P M c a e t HB (tr_rows _ _ _ TR)) as T. destruct (shape_ids _ _ HS) as (ids & N1 & M1 & S1). rewrite <- M1. apply Permutation_map. apply NoDup_Permutation; auto; [apply (ti_nodup _ _ _ _ _ _ _ _ T)|].
  intros x. rewrite S1. split; [|tauto]. intros IL. split; auto. apply (ti_leaves _ _ _ _ _ _ _ _ T) in IL. destruct IL as [nd [A _]]. eapply root_above; eauto.
Qed.
End Built.

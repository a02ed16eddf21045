(** Growing a tree on data in other units, or with the rows in another order. *)
From Coq Require Import List Arith Bool ZArith QArith Qcanon Lia Permutation.
From Verif Require Import Base Num Rng Histogram Utils Criteria Solvers Tree Spec SolverSpec TreeSpec InvarSpec NumFacts ListFacts HistFacts HistAdd CritFacts ReductionFacts MakeHist SampleFacts ExactProps DrawFacts CountFacts TreeFacts TreeThms MoveFacts.
Import ListNotations.
Local Open Scope nat_scope.

(** ** Extended numbers *)
Lemma move_x_lt s x y : (0 < s)%Qc -> xlt (move_x s x) (move_x s y) = xlt x y.
Proof.
  intros H. destruct x, y; cbn [move_x xlt]; auto. destruct (qlt q q0) eqn:E.
  - apply qlt_spec in E. apply qlt_spec. qnra.
  - apply qlt_false in E. apply qlt_false. qnra.
Qed.
Lemma move_x_mul s x y : (0 < s)%Qc -> xmul (move_x s x) (Fin y) = move_x s (xmul x (Fin y)).
Proof. intros H. destruct x; cbn [move_x xmul]; auto; [f_equal; ring| |]; unfold xinf_mul; destruct (xsign y); reflexivity. Qed.
Lemma xsign_scale s x : (0 < s)%Qc -> xsign (s * x)%Qc = xsign x.
Proof.
  intros H. unfold xsign. destruct (Qccompare x 0) eqn:E.
  - apply Qceq_alt in E. apply Qceq_alt. subst x. ring.
  - apply Qclt_alt in E. apply Qclt_alt. apply (Qcmult_lt_compat_r _ _ s) in E; auto. rewrite Qcmult_0_l, Qcmult_comm in E. exact E.
  - apply Qcgt_alt in E. apply Qcgt_alt. apply (Qcmult_lt_compat_r _ _ s) in E; auto. rewrite Qcmult_0_l, Qcmult_comm in E. exact E.
Qed.
Lemma move_x_div s x y : (0 < s)%Qc -> xdiv (move_x s x) (Fin y) = move_x s (xdiv x (Fin y)).
Proof.
  intros H. destruct x; cbn [move_x xdiv]; auto.
  - destruct (qeq y 0); [rewrite xsign_scale by auto; unfold xinf_mul; destruct (xsign q); reflexivity|]. cbn [move_x]. f_equal. unfold Qcdiv. ring.
  - destruct (qeq y 0); auto. unfold xinf_mul; destruct (xsign y); reflexivity.
  - destruct (qeq y 0); auto. unfold xinf_mul; destruct (xsign y); reflexivity.
Qed.

Section Sim.
Context (M : math) (c : tcfg) (a a' : targs) (u : units) (g : Qc -> Qc) (s : Qc) (W : nat).
Context (TR : trainable c a W) (MA : moved_args u g a a') (EX : tc_solver c = EXACT) (BT : tc_bin c = LINEAR \/ tc_bin c = IDENTITY).
Context (BO : bins_ok c) (RS : rescaling (tc_bin c) W u) (RL : relabelling c g s) (GC : tc_class c = true -> good_classes (tc_classes c)).
Notation D := (ta_data a).
Notation L := (ta_labels a).
Notation D' := (ta_data a').
Notation L' := (ta_labels a').
Notation c' := (move_cfg u g s c).

Lemma scale_pos : (0 < s)%Qc.
Proof.
  unfold relabelling in RL. destruct (tc_class c); [destruct RL as [-> _]; reflexivity|]. destruct RL as (k & d & K & -> & _).
  destruct (q_total k 0) as [A|[A|A]]; [|contradiction|]; qnra.
Qed.
Hint Resolve scale_pos : core.

(** ** Rows *)
Definition rows_sim (I I' : list nat) : Prop :=
  Permutation (map (fun i => (move_row u (nth i D []), g (nth i L 0%Qc))) I) (map (fun i => (nth i D' [], nth i L' 0%Qc)) I').
Lemma rows_len I I' : rows_sim I I' -> length I' = length I.
Proof. intros P. apply Permutation_length in P. now rewrite !map_length in P. Qed.
Lemma row_back i' : In i' (train_rows a') -> exists i, In i (train_rows a) /\ nth i' D' [] = move_row u (nth i D []) /\ nth i' L' 0%Qc = g (nth i L 0%Qc).
Proof.
  intros H. apply (in_map (fun i => (nth i D' [], nth i L' 0%Qc))) in H. apply (Permutation_in _ (Permutation_sym (ma_rows _ _ _ _ MA))) in H.
  apply in_map_iff in H. destruct H as [i [E H]]. exists i. split; auto. injection E as <- <-. auto.
Qed.
Lemma width i : In i (train_rows a) -> i < length D /\ length (nth i D []) = W.
Proof.
  intros H. assert (A : i < length D) by (rewrite <- (tr_len _ _ _ TR); now apply (tr_rows_in _ _ _ TR)). split; auto.
  apply (tr_rect _ _ _ TR). now apply nth_In.
Qed.
Lemma width' i : In i (train_rows a') -> i < length D' /\ length (nth i D' []) = W.
Proof.
  intros H. split; [rewrite (ma_len _ _ _ _ MA); now apply (ma_in _ _ _ _ MA)|]. destruct (row_back i H) as (j & J & -> & _).
  rewrite move_row_length. now apply width.
Qed.

Definition un (fs : list nat) : units := fun j => u (nth j fs 0).
Lemma un_row fs x : (forall f, In f fs -> f < length x) -> move_row (un fs) (map (fun f => nth f x 0%Qc) fs) = map (fun f => nth f (move_row u x) 0%Qc) fs.
Proof.
  intros H. apply list_ext. intros j. rewrite move_row_nth, !nth_error_map. destruct (nth_error fs j) as [f|] eqn:E; cbn [option_map]; auto.
  rewrite move_row_cell by (apply H; eapply nth_error_In; eauto). unfold un. now rewrite (nth_error_nth _ _ _ E).
Qed.
Lemma un_rescaling fs : (forall f, In f fs -> f < W) -> rescaling (tc_bin c) (length fs) (un fs).
Proof. intros H f Hf. apply RS. apply H. now apply nth_In. Qed.

Definition sub (X : list (list Qc)) (fs I : list nat) : list (list Qc) := map (fun i => map (cell X i) fs) I.
Lemma combine_sub X Y fs I : combine (sub X fs I) (labels_at Y I) = map (fun i => (map (cell X i) fs, nth i Y 0%Qc)) I.
Proof. induction I; cbn; auto. now rewrite <- IHI. Qed.
Lemma sub_sim fs I I' : (forall f, In f fs -> f < W) -> incl I (train_rows a) -> rows_sim I I' ->
  Permutation (map (move_pair (un fs) g) (combine (sub D fs I) (labels_at L I))) (combine (sub D' fs I') (labels_at L' I')).
Proof.
  intros F IN P. rewrite !combine_sub, map_map.
  apply (Permutation_map (fun p : list Qc * Qc => (map (fun f => nth f (fst p) 0%Qc) fs, snd p))) in P. rewrite !map_map in P. cbn [fst snd] in P.
  erewrite map_ext_in; [exact P|]. intros i Hi. unfold move_pair. cbn [fst snd]. f_equal. unfold cell. apply un_row.
  intros f Hf. rewrite (proj2 (width i (IN i Hi))). auto.
Qed.
Lemma labels_sim I I' : rows_sim I I' -> Permutation (map g (labels_at L I)) (labels_at L' I').
Proof. intros P. apply (Permutation_map snd) in P. rewrite !map_map in P. cbn in P. unfold labels_at. now rewrite map_map. Qed.
Lemma label_inj I x y : incl I (train_rows a) -> In x (labels_at L I) -> In y (labels_at L I) -> g x = g y -> x = y.
Proof.
  intros IN Hx Hy E. unfold relabelling in RL. destruct (tc_class c) eqn:IC.
  - destruct RL as [_ H]. apply H; auto; unfold labels_at in *; apply in_map_iff in Hx, Hy; destruct Hx as [i [<- Hx]], Hy as [j [<- Hy]]; apply (tr_classes _ _ _ TR IC); auto.
  - destruct RL as (k & d & K & _ & H). rewrite !H in E. assert (k * (x - y) = 0)%Qc as Z by (replace (k * (x - y))%Qc with ((k * x + d) - (k * y + d))%Qc by ring; rewrite E; ring).
    apply qmult_eq_0 in Z. destruct Z; [contradiction|]. qlra.
Qed.

Lemma counts_sim I I' cs : tc_class c = true -> incl I (train_rows a) -> rows_sim I I' ->
  counts_of_labels (tc_classes c) (labels_at L I) = Ok cs -> counts_of_labels (tc_classes c') (labels_at L' I') = Ok cs.
Proof.
  intros IC IN P H. destruct (GC IC) as (G1 & G2 & G3). unfold relabelling in RL. rewrite IC in RL. destruct RL as [_ INJ].
  destruct (counts_of_labels_spec _ _ _ (GC IC) H) as (A1 & A2 & A3). pose proof (labels_sim _ _ P) as PL.
  assert (G' : good_classes (tc_classes c')).
  { cbn [move_cfg tc_classes]. split; [|split]; rewrite ?map_map; cbn [fst snd]; auto.
    - rewrite <- (map_map fst g). assert (Q : forall l, incl l (map fst (tc_classes c)) -> NoDup l -> NoDup (map g l)).
      { induction l as [|x l IH]; intros IL ND; cbn; constructor; inversion ND; subst; [|apply IH; auto; intros y Hy; apply IL; now right].
        intros Hx. apply in_map_iff in Hx. destruct Hx as [y [E Hy]]. assert (y = x) by (apply INJ; auto; apply IL; [now right|now left]). congruence. }
      apply Q; auto. apply incl_refl.
    - intros k i Hk. apply in_map_iff in Hk. destruct Hk as [[k0 i0] [E Hk]]. injection E as <- <-. rewrite map_length. eapply G3; eauto. }
  assert (T : exists cs', counts_of_labels (tc_classes c') (labels_at L' I') = Ok cs').
  { apply counts_of_labels_total; [apply G'|]. intros y Hy. apply (Permutation_in _ (Permutation_sym PL)) in Hy. apply in_map_iff in Hy. destruct Hy as [y0 [<- Hy]].
    cbn [move_cfg tc_classes]. rewrite map_map. cbn [fst]. rewrite <- (map_map fst g). apply in_map. auto. }
  destruct T as [cs' T]. rewrite T. f_equal. destruct (counts_of_labels_spec _ _ _ G' T) as (B1 & B2 & B3). cbn [move_cfg tc_classes] in B1. rewrite map_length in B1.
  apply list_ext. intros j. destruct (lt_dec j (length cs)) as [Hj|Hj].
  2:{ rewrite (proj2 (nth_error_None cs j)), (proj2 (nth_error_None cs' j)); auto; lia. }
  assert (PS : Permutation (map snd (tc_classes c)) (seq 0 (length (tc_classes c)))).
  { apply perm_seq; auto; [now rewrite map_length|]. intros i Hi. apply in_map_iff in Hi. destruct Hi as [[k i'] [<- Hi]]. eapply G3; eauto. }
  assert (Ij : In j (map snd (tc_classes c))) by (eapply Permutation_in; [apply Permutation_sym; exact PS|]; apply in_seq; lia).
  apply in_map_iff in Ij. destruct Ij as [[k j'] [E Ij]]. cbn in E. subst j'. rewrite (A3 k j Ij).
  rewrite (B3 (g k) j). 2:{ cbn [move_cfg tc_classes]. apply in_map_iff. exists (k, j). auto. }
  f_equal. rewrite <- (occurrences_perm _ _ _ PL). apply occurrences_map. intros y Hy E. apply INJ; auto. apply in_map_iff. exists (k, j). auto.
Qed.

Lemma varied_sim I I' : incl I (train_rows a) -> rows_sim I I' -> (1 <? length (unique (labels_at L' I'))) = (1 <? length (unique (labels_at L I))).
Proof.
  intros IN P. pose proof (labels_sim _ _ P) as PL. destruct (1 <? length (unique (labels_at L I))) eqn:E.
  - apply unique_varied in E. destruct E as (x & y & Hx & Hy & N). apply varied_unique. exists (g x), (g y).
    split; [eapply Permutation_in; [exact PL|now apply in_map]|]. split; [eapply Permutation_in; [exact PL|now apply in_map]|].
    intros Q. apply N. eapply label_inj; eauto.
  - destruct (1 <? length (unique (labels_at L' I'))) eqn:E'; auto. apply unique_varied in E'. destruct E' as (x & y & Hx & Hy & N).
    apply (Permutation_in _ (Permutation_sym PL)) in Hx, Hy. apply in_map_iff in Hx, Hy. destruct Hx as [x0 [<- Hx]], Hy as [y0 [<- Hy]].
    rewrite (varied_unique (labels_at L I)) in E; [discriminate|]. exists x0, y0. repeat split; auto. congruence.
Qed.

(** ** Nodes *)
Record nsim (nd nd' : node) : Prop := {
  m_feats : nd_feats nd' = nd_feats nd; m_parent : nd_parent nd' = nd_parent nd; m_n : nd_n nd' = nd_n nd;
  m_bins : nd_bins nd' = nd_bins nd; m_depth : nd_depth nd' = nd_depth nd; m_prop : nd_prop nd' = nd_prop nd;
  m_left : nd_left nd' = nd_left nd; m_right : nd_right nd' = nd_right nd; m_dd : nd_dd nd' = nd_dd nd;
  m_counts : nd_counts nd' = nd_counts nd; m_done : nd_split_done nd' = nd_split_done nd; m_sf : nd_sf nd' = nd_sf nd;
  m_psf : nd_psf nd' = nd_psf nd; m_computed : nd_computed nd' = nd_computed nd; m_queries : nd_queries nd' = nd_queries nd;
  m_splittable : nd_splittable nd' = nd_splittable nd;
  m_sv : nd_sv nd' = match nd_sf nd with None => None | Some f => option_map (u f) (nd_sv nd) end;
  m_sv0 : nd_sf nd = None -> nd_sv nd = None /\ nd_psf nd = None;
  m_red : nd_red nd' = option_map (move_x s) (nd_red nd);
  m_link : forall f, nd_psf nd = Some f -> exists k, nd_sf nd = Some k /\ nth_error (nd_feats nd) f = Some k;
  m_sfw : forall k, nd_sf nd = Some k -> k < W;
  m_mm : reindex_minmax (tc_minmax c) (nd_feats nd) = Ok (nd_minmax nd);
  m_mm' : reindex_minmax (tc_minmax c') (nd_feats nd) = Ok (nd_minmax nd');
  m_caches : nd_probs nd = None /\ nd_plabel nd = None /\ nd_pval nd = None;
  m_caches' : nd_probs nd' = None /\ nd_plabel nd' = None /\ nd_pval nd' = None;
  m_rows : rows_sim (nd_idcs nd) (nd_idcs nd');
  m_in : incl (nd_idcs nd) (train_rows a); m_in' : incl (nd_idcs nd') (train_rows a'); m_ne : nd_idcs nd <> [];
  m_fin : forall f, In f (nd_feats nd) -> f < W;
  m_data : (nd_data nd = None /\ nd_labels nd = None /\ nd_data nd' = None /\ nd_labels nd' = None /\ nd_left nd <> None) \/
           (nd_data nd = Some (sub D (nd_feats nd) (nd_idcs nd)) /\ nd_labels nd = Some (labels_at L (nd_idcs nd)) /\
            nd_data nd' = Some (sub D' (nd_feats nd) (nd_idcs nd')) /\ nd_labels nd' = Some (labels_at L' (nd_idcs nd')));
  m_nb : tc_log_split c = false -> nd_bins nd = tc_nb c;
  m_nn : nd_n nd = length (nd_idcs nd);
  m_ddf : dd_fine (nd_dd nd)
}.

Record tsim (t t' : tree) : Prop := {
  y_n : t_n t' = t_n t; y_dd : t_dd t' = t_dd t; y_feats : t_feats t = train_feats a; y_feats' : t_feats t' = train_feats a;
  y_leaves : t_leaves t' = t_leaves t; y_budget : t_budget t' = t_budget t; y_queries : t_queries t' = t_queries t;
  y_splits : t_splits t' = t_splits t; y_depth : t_depth t' = t_depth t;
  y_data : t_data t = D; y_labels : t_labels t = L; y_data' : t_data t' = D'; y_labels' : t_labels t' = L';
  y_ddf : dd_fine (t_dd t);
  y_nodes : Forall2 nsim (t_nodes t) (t_nodes t')
}.

Lemma choose_incl g0 fs g1 : choose_features (train_feats a) (tc_fsub c) g0 = Ok (fs, g1) -> incl fs (train_feats a).
Proof.
  intros EC. unfold choose_features in EC. destruct (tc_fsub c) eqn:X; try discriminate.
  - injection EC as <- _. apply incl_refl.
  - eapply choice_norepl_incl; eauto.
  - destruct (k <? 0)%Z; [discriminate|]. eapply choice_norepl_incl; eauto.
  - destruct (_ <? 0)%Z; [discriminate|]. eapply choice_norepl_incl; eauto.
Qed.

Lemma reindex_sim fs mm : (forall f, In f fs -> f < W) -> reindex_minmax (tc_minmax c) fs = Ok mm ->
  reindex_minmax (tc_minmax c') fs = Ok (move_ranges (un fs) mm) /\ match mm with None => True | Some (mn, mx) => length mn = length fs /\ length mx = length fs end.
Proof.
  intros F H. unfold reindex_minmax in *. cbn [move_cfg tc_minmax]. destruct (tc_minmax c) as [[mn mx]|]; cbn [option_map fst snd]; [|injection H as <-; auto].
  apply rbind_ok in H. destruct H as [x [E1 H]]. apply rbind_ok in H. destruct H as [y [E2 H]]. injection H as <-.
  assert (G : forall l r, take_idx l fs = Ok r -> take_idx (move_row u l) fs = Ok (move_row (un fs) r)).
  { clear. intros l r E. unfold take_idx in *. pose proof (take_idx_map l fs r 0%Qc E) as EM. pose proof (take_idx_len l fs r E) as EL.
    destruct (take_idx_total (move_row u l) fs) as [r' E']. { intros i Hi. rewrite move_row_length. apply In_nth_error in Hi. destruct Hi as [k Hk]. destruct (mapM_nth' _ _ _ _ _ E Hk) as [b [_ Eb]]. apply nth_res_ok in Eb. apply nth_error_Some. congruence. }
    unfold take_idx in E'. rewrite E'. f_equal. apply list_ext. intros j. rewrite move_row_nth. destruct (nth_error fs j) as [f|] eqn:Ef.
    - destruct (mapM_nth' _ _ _ _ _ E Ef) as [b [Eb1 Eb2]]. destruct (mapM_nth' _ _ _ _ _ E' Ef) as [b' [Eb1' Eb2']]. apply nth_res_ok in Eb2, Eb2'. rewrite move_row_nth, Eb2 in Eb2'.
      cbn [option_map] in Eb2'. rewrite Eb1, Eb1'. cbn [option_map]. unfold un. rewrite (nth_error_nth _ _ _ Ef). now symmetry.
    - pose proof (take_idx_len (move_row u l) fs r' E') as EL'. apply nth_error_None in Ef. rewrite (proj2 (nth_error_None r j)), (proj2 (nth_error_None r' j)); auto; lia. }
  rewrite (G _ _ E1), (G _ _ E2). cbn [rbind move_ranges option_map fst snd]. split; auto. split; eapply take_idx_len; eauto.
Qed.

Lemma new_sim t t' p I I' d pr b e e' nd e1 : tsim t t' -> rows_sim I I' -> I <> [] -> incl I (train_rows a) -> incl I' (train_rows a') -> e_gen e = e_gen e' ->
  (tc_log_split c = false -> b = tc_nb c) ->
  node_new c t p I d pr b e = Ok (nd, e1) -> exists nd' e1', node_new c' t' p I' d pr b e' = Ok (nd', e1') /\ nsim nd nd' /\ e_gen e1 = e_gen e1'.
Proof.
  intros Y P NE IN IN' EG NB H. unfold node_new in *. rewrite (y_feats _ _ Y) in H. rewrite (y_feats' _ _ Y), (y_dd _ _ Y), (y_data' _ _ Y), (y_labels' _ _ Y), <- EG. rewrite (y_data _ _ Y), (y_labels _ _ Y) in H. cbv zeta in *.
  change (tc_fsub c') with (tc_fsub c). change (tc_class c') with (tc_class c).
  apply rbind_ok in H. destruct H as [[fs g1] [EC H]]. rewrite EC. cbn [rbind]. apply rbind_ok in H. destruct H as [x [E1 H]]. rewrite E1. cbn [rbind].
  apply rbind_ok in H. destruct H as [dd [E2 H]]. apply rbind_ok in H. destruct H as [ll [E3 H]]. apply rbind_ok in H. destruct H as [mm [E4 H]]. apply rbind_ok in H. destruct H as [cs [E5 H]].
  apply ok_pair_inv in H. destruct H as [<- <-].
  assert (F : forall f, In f fs -> f < W) by (intros f Hf; apply (tr_feats_in _ _ _ TR); eapply choose_incl; eauto).
  assert (T2 : exists d2, get_subset_2d D' I' fs = Ok d2).
  { unfold get_subset_2d. apply mapM_total. intros i Hi. destruct (width' i (IN' i Hi)) as [W1 W2]. unfold nth_res at 1. rewrite (nth_error_nth' _ [] W1). cbn [rbind].
    apply mapM_total. intros f Hf. unfold nth_res. destruct (nth_error (nth i D' []) f) eqn:Z; [eauto|]. apply nth_error_None in Z. specialize (F f Hf). lia. }
  destruct T2 as [d2 T2]. destruct (take_idx_total L' I') as [l2 T3]. { intros i Hi. apply (ma_in _ _ _ _ MA). auto. }
  rewrite T2. cbn [rbind]. rewrite T3. cbn [rbind]. destruct (reindex_sim fs mm F E4) as [T4 _]. rewrite T4. cbn [rbind].
  pose proof (take_idx_map _ _ _ 0%Qc E3) as M3. pose proof (take_idx_map _ _ _ 0%Qc T3) as M3'. pose proof (subset_2d_map _ _ _ _ E2) as M2. pose proof (subset_2d_map _ _ _ _ T2) as M2'.
  assert (T5 : (if tc_class c then counts_of_labels (tc_classes c') l2 else Ok []) = Ok cs).
  { revert E5. case_eq (tc_class c); intros IC E5; auto. rewrite M3'. eapply (counts_sim I I'); eauto. rewrite M3 in E5. exact E5. }
  rewrite T5. cbn [rbind]. eexists _, _. split; [reflexivity|]. split; [|reflexivity].
  constructor; cbn; auto; try discriminate.
  - rewrite (take_idx_len _ _ _ E3), (take_idx_len _ _ _ T3). now apply rows_len.
  - right. rewrite M2, M2', M3, M3'. repeat split.
  - rewrite (take_idx_len _ _ _ E3). reflexivity.
  - apply Y.
Qed.

(** ** Solving a node *)
Lemma solve_sim nd nd' b e e' out bins e1 : nsim nd nd' -> check_constraints c nd = Ok true -> e_gen e = e_gen e' -> node_solve M c nd b e = Ok (out, bins, e1) ->
  exists e1', node_solve M c' nd' b e' = Ok (moved_out (un (nd_feats nd)) s out, bins, e1') /\ e_gen e1 = e_gen e1'.
Proof.
  intros N CK EG H. unfold node_solve in *. cbv zeta in *. change (tc_solver c') with (tc_solver c). change (tc_log_split c') with (tc_log_split c). change (tc_class c') with (tc_class c).
  change (tc_crit c') with (tc_crit c). change (tc_bin c') with (tc_bin c). rewrite EX in *. rewrite (m_n _ _ N), (m_bins _ _ N), (m_dd _ _ N).
  apply rbind_ok in H. destruct H as [dd [E1 H]]. apply rbind_ok in H. destruct H as [ll [E2 H]]. apply opt_res_ok in E1, E2.
  destruct (m_data _ _ N) as [[Z _]|(D1 & D2 & D3 & D4)]; [congruence|]. rewrite D3, D4. cbn [opt_res rbind]. assert (dd = sub D (nd_feats nd) (nd_idcs nd)) by congruence. assert (ll = labels_at L (nd_idcs nd)) by congruence. subst dd ll.
  apply rbind_ok in H. destruct H as [[o1 e2] [ES H]]. cbn [fst snd] in H. set (bb := if tc_log_split c then Nat.log2 (nd_n nd) + 1 else nd_bins nd) in *. apply ok_pair_inv in H. destruct H as [H <-]. apply pair_equal_spec in H. destruct H as [<- <-].
  unfold check_constraints in CK. apply rbind_ok in CK. destruct CK as [dp [_ CK]]. destruct dp; cbn [negb] in CK; [|discriminate]. destruct (tc_min_split c <? nd_n nd); cbn [negb] in CK; [|discriminate].
  rewrite D2 in CK. cbn [opt_res rbind] in CK. assert (VAR : varied (labels_at L (nd_idcs nd))) by (apply unique_varied; congruence). clear CK.
  assert (NI : 2 <= length (nd_idcs nd)).
  { destruct VAR as [x [y [I1 [I2 NE]]]]. unfold labels_at in *. destruct (nd_idcs nd) as [|i [|j l]]; cbn in *; try tauto; try lia. destruct I1 as [<-|[]], I2 as [<-|[]]. contradiction. }
  destruct (reindex_sim _ _ (m_fin _ _ N) (m_mm _ _ N)) as [MM ML]. rewrite (m_mm' _ _ N) in MM. injection MM as MM.
  assert (SV : solvable {| s_class := tc_class c; s_measure := tc_crit c; s_bin := tc_bin c; s_nb := bb; s_minmax := nd_minmax nd; s_dd := nd_dd nd |} (sub D (nd_feats nd) (nd_idcs nd)) (labels_at L (nd_idcs nd)) (length (nd_feats nd))).
  { constructor; cbn [s_bin s_nb s_minmax s_dd s_class s_measure].
    - intros r I. apply in_map_iff in I. destruct I as [i [<- _]]. apply map_length.
    - pose proof (m_ne _ _ N). unfold sub. destruct (nd_idcs nd); [contradiction|discriminate].
    - unfold sub, labels_at. now rewrite !map_length.
    - destruct BT as [B|B]; rewrite B; auto. unfold bins_ok in BO. rewrite B in BO. unfold bb. destruct (tc_log_split c) eqn:LG.
      + rewrite (m_nn _ _ N). assert (1 <= Nat.log2 (length (nd_idcs nd))) by (change 1 with (Nat.log2 2); now apply Nat.log2_le_mono). lia.
      + rewrite (m_nb _ _ N LG). destruct BO; [discriminate|auto].
    - destruct (nd_minmax nd) as [[mn mx]|] eqn:EM; auto. destruct ML as [ML1 ML2]. rewrite ML1, ML2. split; auto. split; auto. pose proof (m_mm _ _ N) as MX. rewrite EM in MX. unfold reindex_minmax in MX.
      pose proof (tr_minmax _ _ _ TR) as TM. destruct (tc_minmax c) as [[mn0 mx0]|]; [|discriminate]. destruct TM as (_ & _ & TM). apply rbind_ok in MX. destruct MX as [r1 [X1 MX]]. apply rbind_ok in MX. destruct MX as [r2 [X2 MX]]. injection MX as -> ->.
      intros f x y Nx Ny. assert (Hf : f < length (nd_feats nd)) by (rewrite <- ML1; apply nth_error_Some; congruence). destruct (nth_error (nd_feats nd) f) as [k|] eqn:Ek; [|apply nth_error_None in Ek; lia].
      destruct (mapM_nth' _ _ _ _ _ X1 Ek) as [b1 [B1 B1']]. destruct (mapM_nth' _ _ _ _ _ X2 Ek) as [b2 [B2 B2']]. apply nth_res_ok in B1', B2'. apply (TM k); congruence.
    - pose proof (m_ddf _ _ N) as DF. destruct (nd_dd nd) as [d0|]; auto. intros f _. unfold dd_get. cbn in DF. rewrite DF. destruct (assoc f (dd_items d0)); eauto.
    - pose proof (tr_crit _ _ _ TR) as TC. destruct (tc_class c); auto. destruct TC as [E|[E|[E L2]]]; auto. right. right. split; auto. eapply Nat.le_trans; [|exact L2].
      apply NoDup_incl_length; [apply NoDup_nodup|]. intros x I. apply nodup_In in I. apply nodup_In. unfold labels_at in *.
      apply in_map_iff in I. destruct I as [i [<- I]]. apply in_map_iff. exists i. split; auto. apply (m_in _ _ N). auto. }
  set (sc' := {| s_class := tc_class c; s_measure := tc_crit c; s_bin := tc_bin c; s_nb := bb; s_minmax := nd_minmax nd'; s_dd := nd_dd nd |}).
  destruct (exact_moved M _ sc' _ _ (sub D' (nd_feats nd) (nd_idcs nd')) (labels_at L' (nd_idcs nd')) (length (nd_feats nd)) (un (nd_feats nd)) g s e e' o1 e2 SV) as (G1 & e3 & G2 & G3); auto.
  - apply un_rescaling. apply N.
  - unfold sub, labels_at. now rewrite !map_length.
  - apply sub_sim; apply N.
  - intros l IL. apply impurity_moved; [cbn [s_class s_measure]; intros IC; pose proof (tr_crit _ _ _ TR) as TC; rewrite IC in TC; destruct TC; congruence|]. cbn [s_class]. pose proof RL as RL1. unfold relabelling in RL1. revert RL1. case_eq (tc_class c); intros IC RL1; [|exact RL1]. split; [exact (proj1 RL1)|].
    intros x y Hx Hy. eapply label_inj; [apply (m_in _ _ N)|apply IL; auto|apply IL; auto].
  - rewrite G2. cbn [rbind fst snd]. eexists. split; [reflexivity|]. congruence.
Qed.

Lemma constraints_sim nd nd' : nsim nd nd' -> check_constraints c' nd' = check_constraints c nd.
Proof.
  intros N. unfold check_constraints. change (tc_max_depth c') with (tc_max_depth c). change (tc_min_split c') with (tc_min_split c). rewrite (m_depth _ _ N), (m_n _ _ N).
  destruct (m_data _ _ N) as [(_ & -> & _ & -> & _)|(_ & -> & _ & ->)]; auto. cbn [opt_res rbind]. rewrite (varied_sim _ _ (m_in _ _ N) (m_rows _ _ N)). reflexivity.
Qed.

Lemma best_sim nd nd' b e e' x o e1 : nsim nd nd' -> nd_computed nd = true \/ check_constraints c nd = Ok true -> e_gen e = e_gen e' -> calculate_best_split M c nd b e = Ok (x, o, e1) ->
  exists x' e1', calculate_best_split M c' nd' b e' = Ok (x', option_map (move_x s) o, e1') /\ nsim x x' /\ e_gen e1 = e_gen e1' /\ nd_computed x = true /\ nd_data x = nd_data nd /\ nd_left x = nd_left nd.
Proof.
  intros N CK EG H. unfold calculate_best_split in *. rewrite (m_computed _ _ N). destruct (nd_computed nd) eqn:C.
  { apply ok_pair_inv in H. destruct H as [H <-]. apply pair_equal_spec in H. destruct H as [<- <-]. exists nd', e'. rewrite (m_red _ _ N). auto 10. }
  destruct CK as [CK|CK]; [discriminate|].
  apply rbind_ok in H. destruct H as [[[out bins] e2] [ES H]]. destruct (solve_sim nd nd' b e e' out bins e2 N CK EG ES) as (e2' & ES' & G2). rewrite ES'. cbn [rbind].
  assert (BN : tc_log_split c = false -> bins = tc_nb c) by (intros LG; rewrite (node_solve_bins M c _ _ _ _ _ _ ES), LG; now apply N).
  destruct out as [f v r q|q]; cbn [moved_out].
  - apply rbind_ok in H. destruct H as [sf [E1 H]]. rewrite (m_feats _ _ N), E1. cbn [rbind]. apply ok_pair_inv in H. destruct H as [H <-]. apply pair_equal_spec in H. destruct H as [<- <-].
    apply nth_res_ok in E1. rewrite (m_prop _ _ N), move_x_mul by auto. eexists _, _. split; [reflexivity|]. split; [|auto 10].
    destruct N. constructor; cbn; auto; try discriminate.
    + unfold un. now rewrite (nth_error_nth _ _ _ E1).
    + intros f0 E. injection E as <-. eauto.
    + intros k E. injection E as <-. apply m_fin0. eapply nth_error_In; eauto.
  - apply ok_pair_inv in H. destruct H as [H <-]. apply pair_equal_spec in H. destruct H as [<- <-]. eexists _, _. split; [reflexivity|]. split; [|auto 10].
    destruct N. constructor; cbn; auto.
Qed.

Lemma splittable_sim t t' nd nd' e e' b x e1 : t_n t' = t_n t -> nsim nd nd' -> nd_computed nd = true -> e_gen e = e_gen e' -> check_splittable M c t nd e = Ok (b, x, e1) ->
  exists x' e1', check_splittable M c' t' nd' e' = Ok (b, x', e1') /\ nsim x x' /\ e_gen e1 = e_gen e1' /\ x = nd.
Proof.
  intros TN N C EG H. unfold check_splittable in *. rewrite (constraints_sim nd nd' N). apply rbind_ok in H. destruct H as [ok [E1 H]]. rewrite E1. cbn [rbind].
  destruct ok; cbn [negb] in *; [|apply ok_pair_inv in H; destruct H as [H <-]; apply pair_equal_spec in H; destruct H as [<- <-]; eauto 10].
  unfold calculate_best_split in *. rewrite (m_computed _ _ N), C in *. cbn [rbind] in *. rewrite (m_red _ _ N). destruct (nd_red nd) as [r|]; cbn [option_map]; [|apply ok_pair_inv in H; destruct H as [H <-]; apply pair_equal_spec in H; destruct H as [<- <-]; eauto 10].
  rewrite ?(m_computed _ _ N), ?C in *. cbn [rbind opt_res] in *. rewrite ?(m_red _ _ N).
  apply ok_pair_inv in H. destruct H as [H <-]. apply pair_equal_spec in H. destruct H as [<- <-]. exists nd', e'. split; [|auto]. rewrite TN, (m_n _ _ N).
  change (tc_min_imp c') with (s * tc_min_imp c)%Qc. change (Fin (s * tc_min_imp c)%Qc) with (move_x s (Fin (tc_min_imp c))). rewrite move_x_mul, move_x_div, move_x_lt by auto. reflexivity.
Qed.

(** ** The scan over the leaves *)
Lemma Forall2_set2 {A B} (R : A -> B -> Prop) l l' i x y : Forall2 R l l' -> R x y -> Forall2 R (set_nth i x l) (set_nth i y l').
Proof. intros F RR. revert i. induction F; intros [|i]; cbn; constructor; auto. Qed.
Lemma Forall2_length {A B} (R : A -> B -> Prop) l l' : Forall2 R l l' -> length l = length l'.
Proof. induction 1; cbn; congruence. Qed.
Lemma put_sim t t' id nd nd' : tsim t t' -> nsim nd nd' -> tsim (put_node t id nd) (put_node t' id nd').
Proof. intros [] N. constructor; cbn; auto. now apply Forall2_set2. Qed.
Lemma pay_sim t t' q : tsim t t' -> tsim (pay t q) (pay t' q).
Proof. intros []. constructor; cbn; auto; now rewrite y_budget0. Qed.
Lemma wsplit_sim nd nd' b : nsim nd nd' -> nsim (with_splittable nd b) (with_splittable nd' b).
Proof. intros []. constructor; cbn; auto. Qed.

Definition move_best (b : option (nat * nat * xn)) := option_map (fun p : nat * nat * xn => (fst p, move_x s (snd p))) b.
Record zsim (z z' : scan) : Prop := {
  z_tree : tsim (sc_tree z) (sc_tree z'); z_env : e_gen (sc_env z) = e_gen (sc_env z'); z_best : sc_best z' = move_best (sc_best z); z_stop : sc_stop z' = sc_stop z;
  z_done : forall pos id x, sc_best z = Some (pos, id, x) -> exists nd, nth_error (t_nodes (sc_tree z)) id = Some nd /\ nd_computed nd = true }.

Lemma done_put (t : tree) id id0 nd0 nd1 : nth_error (t_nodes t) id0 = Some nd0 -> (nd_computed nd0 = true -> nd_computed nd1 = true) ->
  (exists nd, nth_error (t_nodes t) id = Some nd /\ nd_computed nd = true) -> exists nd, nth_error (t_nodes (put_node t id0 nd1)) id = Some nd /\ nd_computed nd = true.
Proof.
  intros E H [nd [A C]]. cbn [put_node set_nodes t_nodes]. rewrite set_nth_nth, E. destruct (Nat.eqb_spec id id0) as [->|]; eauto. exists nd1. split; auto. apply H. congruence.
Qed.

Lemma scan_sim z z' pos id z1 : zsim z z' -> scan_leaf M c z (pos, id) = Ok z1 -> exists z1', scan_leaf M c' z' (pos, id) = Ok z1' /\ zsim z1 z1'.
Proof.
  intros [ZT ZE ZB ZS ZD] H. unfold scan_leaf in *. rewrite ZS. destruct (sc_stop z) eqn:EST.
  { assert (z = z1) by congruence. subst z1. exists z'. split; auto. constructor; auto. congruence. }
  apply rbind_ok in H. destruct H as [nd [E1 H]]. apply nth_res_ok in E1. destruct (Forall2_nth _ _ _ _ _ (y_nodes _ _ ZT) E1) as [nd' [E1' N]].
  unfold nth_res. rewrite E1'. cbn [rbind]. rewrite (constraints_sim nd nd' N). apply rbind_ok in H. destruct H as [ok [E2 H]]. rewrite E2. cbn [rbind].
  destruct ok; cbn [negb] in *.
  2:{ match type of H with Ok ?z0 = _ => assert (X : z0 = z1) by congruence end. rewrite <- X. eexists. split; [reflexivity|]. constructor; cbn [sc_tree sc_env sc_best sc_stop]; auto.
      - apply put_sim; auto. now apply wsplit_sim.
      - intros p i x B. eapply done_put; eauto. }
  rewrite (y_budget _ _ ZT). match type of H with (if ?b then _ else _) = _ => destruct b end.
  { match type of H with Ok ?z0 = _ => assert (X : z0 = z1) by congruence end. rewrite <- X. eexists. split; [reflexivity|]. constructor; cbn [sc_tree sc_env sc_best sc_stop]; auto. }
  apply rbind_ok in H. destruct H as [[[nd1 red] e1] [E3 H]]. destruct (best_sim nd nd' _ _ (sc_env z') _ _ _ N (or_intror E2) ZE E3) as (nd1' & e1' & E3' & N1 & G1 & C1 & _). rewrite E3'. cbn [rbind]. rewrite (m_computed _ _ N).
  set (t2 := if nd_computed nd then put_node (sc_tree z) id nd1 else pay (put_node (sc_tree z) id nd1) (nd_queries nd1)) in *. rewrite (m_queries _ _ N1), (m_splittable _ _ N1).
  set (t2' := if nd_computed nd then put_node (sc_tree z') id nd1' else pay (put_node (sc_tree z') id nd1') (nd_queries nd1)) in *. cbv zeta in *.
  assert (T2 : tsim t2 t2') by (unfold t2, t2'; destruct (nd_computed nd); [now apply put_sim|apply pay_sim; now apply put_sim]).
  apply rbind_ok in H. destruct H as [[[spl nd3] e3] [E4 H]].
  assert (G : exists nd3' e3', match nd_splittable nd1 with Some b => Ok (b, nd1', e1') | None => do k <- check_splittable M c' t2' nd1' e1'; let '(b, nd2, e2) := k in Ok (b, with_splittable nd2 b, e2) end = Ok (spl, nd3', e3') /\ nsim nd3 nd3' /\ e_gen e3 = e_gen e3' /\ nd_computed nd3 = true).
  { destruct (nd_splittable nd1).
    - apply ok_pair_inv in E4. destruct E4 as [E4 <-]. apply pair_equal_spec in E4. destruct E4 as [<- <-]. eauto 10.
    - apply rbind_ok in E4. destruct E4 as [[[b nd2] e2] [E5 E4]]. destruct (splittable_sim t2 t2' nd1 nd1' e1 e1' b nd2 e2 (y_n _ _ T2) N1 C1 G1 E5) as (nd2' & e2' & E5' & N2 & G2 & NQ). rewrite E5'. cbn [rbind].
      apply ok_pair_inv in E4. destruct E4 as [E4 <-]. apply pair_equal_spec in E4. destruct E4 as [<- <-]. eexists _, _. split; [reflexivity|]. split; [now apply wsplit_sim|]. split; auto. rewrite NQ. exact C1. }
  destruct G as (nd3' & e3' & G & N3 & G3 & C3). rewrite G. cbn [rbind]. match type of H with Ok ?z0 = _ => assert (X : z0 = z1) by congruence end. rewrite <- X. clear X H.
  eexists. split; [reflexivity|]. constructor; cbn [sc_tree sc_env sc_best sc_stop]; auto.
  - now apply put_sim.
  - rewrite ZB. destruct red as [x|]; cbn [option_map]; auto.
    assert (Q : xlt (move_x s x) match move_best (sc_best z) with None => PInf | Some (_, _, y) => y end = xlt x match sc_best z with None => PInf | Some (_, _, y) => y end).
    { destruct (sc_best z) as [[[p i] y]|]; cbn [move_best option_map fst snd]; [now apply move_x_lt|]. change PInf with (move_x s PInf) at 1. now apply move_x_lt. }
    rewrite Q. match goal with |- (if ?b then _ else _) = _ => destruct b end; auto.
  - assert (A2 : nth_error (t_nodes t2) id = Some nd1). { unfold t2. destruct (nd_computed nd); cbn [put_node pay set_nodes t_nodes]; rewrite set_nth_nth, E1, Nat.eqb_refl; reflexivity. }
    assert (KEEP : forall i, (exists n, nth_error (t_nodes (sc_tree z)) i = Some n /\ nd_computed n = true) -> exists n, nth_error (t_nodes (put_node t2 id nd3)) i = Some n /\ nd_computed n = true).
    { intros i EI. apply done_put with (nd0 := nd1); auto. assert (Q : t_nodes t2 = t_nodes (put_node (sc_tree z) id nd1)) by (unfold t2; destruct (nd_computed nd); reflexivity). rewrite Q. eapply done_put; eauto. }
    intros p i x B. destruct red as [y|]; [|apply KEEP; eapply ZD; eauto].
    match type of B with (if ?b then _ else _) = _ => destruct b end; [|apply KEEP; eapply ZD; eauto].
    assert (id = i) by congruence. subst i. exists nd3. split; auto. cbn [put_node set_nodes t_nodes]. rewrite set_nth_nth, A2, Nat.eqb_refl. reflexivity.
Qed.

Lemma scans_sim l : forall z z' z1, zsim z z' -> foldM (scan_leaf M c) z l = Ok z1 -> exists z1', foldM (scan_leaf M c') z' l = Ok z1' /\ zsim z1 z1'.
Proof.
  induction l as [|[pos id] l IH]; intros z z' z1 Z H; cbn [foldM] in *; [assert (z = z1) by congruence; subst; eauto|].
  apply rbind_ok in H. destruct H as [z2 [E H]]. destruct (scan_sim z z' pos id z2 Z E) as (z2' & E' & Z2). rewrite E'. cbn [rbind]. eauto.
Qed.

(** ** Splitting a leaf *)
Lemma filter_sim (p : Qc -> Qc -> bool) I I' k v : incl I (train_rows a) -> k < W -> (forall x, p (u k x) (u k v) = p x v) -> rows_sim I I' ->
  rows_sim (filter (fun i => p (cell D i k) v) I) (filter (fun i => p (cell D' i k) (u k v)) I').
Proof.
  intros IN HK HP P. unfold rows_sim in *. set (P' := fun q : list Qc * Qc => p (nth k (fst q) 0%Qc) (u k v)).
  replace (map (fun i => (move_row u (nth i D []), g (nth i L 0%Qc))) (filter (fun i => p (cell D i k) v) I)) with (filter P' (map (fun i => (move_row u (nth i D []), g (nth i L 0%Qc))) I)).
  2:{ rewrite filter_map_comm. f_equal. apply filter_ext_in. intros i Hi. unfold P'. cbn [fst]. rewrite move_row_cell by (rewrite (proj2 (width i (IN i Hi))); auto). apply HP. }
  replace (map (fun i => (nth i D' [], nth i L' 0%Qc)) (filter (fun i => p (cell D' i k) (u k v)) I')) with (filter P' (map (fun i => (nth i D' [], nth i L' 0%Qc)) I')).
  2:{ rewrite filter_map_comm. f_equal. }
  now apply filter_perm.
Qed.
Lemma col_sub X fs I f k : nth_error fs f = Some k -> col (sub X fs I) f = Ok (map (fun i => cell X i k) I).
Proof.
  intros F. unfold col, sub. rewrite mapM_map. induction I as [|i I IH]; cbn [map mapM]; auto. unfold nth_res at 1. rewrite nth_error_map, F. cbn [option_map rbind]. now rewrite IH.
Qed.

Lemma split_sim t t' id e e' t1 e1 : tsim t t' -> (exists nd, nth_error (t_nodes t) id = Some nd /\ nd_computed nd = true) -> e_gen e = e_gen e' -> node_split M c t id e = Ok (t1, e1) ->
  exists t1' e1', node_split M c' t' id e' = Ok (t1', e1') /\ tsim t1 t1' /\ e_gen e1 = e_gen e1'.
Proof.
  intros T (nd & A & C) EG H. destruct (Forall2_nth _ _ _ _ _ (y_nodes _ _ T) A) as [nd' [A' N]]. unfold node_split in *. unfold nth_res in *. rewrite A' . rewrite A in H. cbn [rbind] in *. rewrite (m_done _ _ N).
  apply rbind_ok in H. destruct H as [[] [G1 H]]. rewrite G1. cbn [rbind]. unfold calculate_best_split in *. rewrite C in H. rewrite (m_computed _ _ N), C, (m_sf _ _ N).
  assert (Q : match nd_sf nd with Some _ => Ok (nd, e) | None => do r <- Ok (nd, nd_red nd, e); Ok (fst (fst r), snd r) end = Ok (nd, e)) by (destruct (nd_sf nd); reflexivity).
  assert (Q' : match nd_sf nd with Some _ => Ok (nd', e') | None => do r <- Ok (nd', nd_red nd', e'); Ok (fst (fst r), snd r) end = Ok (nd', e')) by (destruct (nd_sf nd); reflexivity).
  rewrite Q in H. rewrite Q'. cbn [rbind] in *. clear Q Q'. rewrite (m_red _ _ N). destruct (nd_red nd) as [red|]; cbn [option_map].
  2:{ apply ok_pair_inv in H. destruct H as [<- <-]. eexists _, _. split; [reflexivity|]. split; auto. now apply put_sim. }
  apply rbind_ok in H. destruct H as [[] [G2 H]]. assert (Q : xlt (move_x s red) (Fin 0) = xlt red (Fin 0)).
  { replace (Fin 0) with (move_x s (Fin 0)) at 1 by (cbn; f_equal; ring). now apply move_x_lt. }
  rewrite Q, G2. cbn [rbind]. clear Q.
  apply rbind_ok in H. destruct H as [dd [E1 H]]. apply rbind_ok in H. destruct H as [ll [E2 H]]. apply opt_res_ok in E1, E2.
  destruct (m_data _ _ N) as [[Z _]|(D1 & D2 & D3 & D4)]; [congruence|]. rewrite D3, D4. cbn [opt_res rbind]. assert (dd = sub D (nd_feats nd) (nd_idcs nd)) by congruence. assert (ll = labels_at L (nd_idcs nd)) by congruence. subst dd ll.
  apply rbind_ok in H. destruct H as [f [E3 H]]. apply opt_res_ok in E3. rewrite (m_psf _ _ N), E3. cbn [opt_res rbind]. destruct (m_link _ _ N f E3) as (k & SF & NF).
  apply rbind_ok in H. destruct H as [v [E4 H]]. apply opt_res_ok in E4. rewrite (m_sv _ _ N), SF, E4. cbn [option_map opt_res rbind].
  rewrite (col_sub D _ _ _ _ NF) in H. rewrite (col_sub D' _ _ _ _ NF). cbn [rbind] in *. cbv zeta in *.
  destruct (split_filter v (fun i => cell D i k) (nd_idcs nd)) as [F1 F2]. rewrite F1, F2 in H. destruct (split_filter (u k v) (fun i => cell D' i k) (nd_idcs nd')) as [F1' F2']. rewrite F1', F2'. clear F1 F2 F1' F2'.
  assert (KW : k < W) by (eapply m_sfw; eauto). assert (IU : increasing (u k)) by now apply RS.
  pose proof (filter_sim qle _ _ k v (m_in _ _ N) KW (fun x => incr_qle _ x v IU) (m_rows _ _ N)) as PL.
  pose proof (filter_sim (fun x y => qlt y x) _ _ k v (m_in _ _ N) KW (fun x => incr_qlt _ v x IU) (m_rows _ _ N)) as PR. cbn beta in PR.
  set (LI := filter (fun i => qle (cell D i k) v) (nd_idcs nd)) in *. set (RI := filter (fun i => qlt v (cell D i k)) (nd_idcs nd)) in *.
  set (LI' := filter (fun i => qle (cell D' i k) (u k v)) (nd_idcs nd')) in *. set (RI' := filter (fun i => qlt (u k v) (cell D' i k)) (nd_idcs nd')) in *.
  rewrite (rows_len _ _ PL), (rows_len _ _ PR). destruct ((length LI =? 0) || (length RI =? 0)) eqn:Z; [discriminate|]. apply orb_false_iff in Z. destruct Z as [Z1 Z2].
  apply rbind_ok in H. destruct H as [[nl e2] [C1 H]]. apply rbind_ok in H. destruct H as [[nr e3] [C2 H]]. cbn [fst snd] in *. unfold create_child in *.
  assert (LL : length (labels_at L' (nd_idcs nd')) = length (labels_at L (nd_idcs nd))) by (unfold labels_at; rewrite !map_length; apply rows_len, N).
  rewrite (rows_len _ _ PL), (rows_len _ _ PR), LL, (m_depth _ _ N), (m_prop _ _ N), (m_bins _ _ N).
  assert (IL : incl LI (train_rows a)) by (intros i Hi; apply (m_in _ _ N); unfold LI in Hi; now apply filter_In in Hi). assert (IR : incl RI (train_rows a)) by (intros i Hi; apply (m_in _ _ N); unfold RI in Hi; now apply filter_In in Hi).
  assert (IL' : incl LI' (train_rows a')) by (intros i Hi; apply (m_in' _ _ N); unfold LI' in Hi; now apply filter_In in Hi). assert (IR' : incl RI' (train_rows a')) by (intros i Hi; apply (m_in' _ _ N); unfold RI' in Hi; now apply filter_In in Hi).
  assert (NL : LI <> []) by (intros Y; rewrite Y in Z1; discriminate). assert (NR : RI <> []) by (intros Y; rewrite Y in Z2; discriminate).
  destruct (new_sim t t' _ LI LI' _ _ _ e e' nl e2 T PL NL IL IL' EG (m_nb _ _ N) C1) as (nl' & e2' & C1' & N1 & G3). rewrite C1'. cbn [rbind fst snd].
  destruct (new_sim t t' _ RI RI' _ _ _ e2 e2' nr e3 T PR NR IR IR' G3 (m_nb _ _ N) C2) as (nr' & e3' & C2' & N2 & G4). rewrite C2'. cbn [rbind fst snd].
  apply ok_pair_inv in H. destruct H as [<- <-]. eexists _, _. split; [reflexivity|]. split; auto.
  assert (LN : length (t_nodes t') = length (t_nodes t)) by (symmetry; eapply Forall2_length; apply T). rewrite LN.
  assert (NW : nsim (with_children nd (length (t_nodes t)) (S (length (t_nodes t)))) (with_children nd' (length (t_nodes t)) (S (length (t_nodes t))))).
  { destruct N. constructor; cbn; auto. left. repeat split; auto. discriminate. }
  pose proof (put_sim _ _ id _ _ T NW) as T1. destruct T1. constructor; cbn in *; auto. apply Forall2_app; auto.
Qed.

(** ** The loop *)
Lemma depth_sim t t' : tsim t t' -> get_depth t' = get_depth t.
Proof.
  intros T. unfold get_depth. rewrite (y_leaves _ _ T). f_equal. assert (G : forall l, mapM (fun id => do nd <- nth_res (t_nodes t') id; Ok (nd_depth nd)) l = mapM (fun id => do nd <- nth_res (t_nodes t) id; Ok (nd_depth nd)) l).
  { induction l as [|id l IH]; cbn [mapM]; auto. assert (Q : (do nd <- nth_res (t_nodes t') id; Ok (nd_depth nd)) = (do nd <- nth_res (t_nodes t) id; Ok (nd_depth nd))).
    { unfold nth_res. destruct (nth_error (t_nodes t) id) as [nd|] eqn:E.
      - destruct (Forall2_nth _ _ _ _ _ (y_nodes _ _ T) E) as [nd' [-> N]]. cbn. now rewrite (m_depth _ _ N).
      - destruct (nth_error (t_nodes t') id) as [nd'|] eqn:E'; auto. destruct (Forall2_nth' _ _ _ _ _ (y_nodes _ _ T) E') as [nd [E2 _]]. congruence. }
    rewrite Q, IH. reflexivity. }
  apply G.
Qed.
Lemma set_depth_sim t t' d : tsim t t' -> tsim (set_depth t d) (set_depth t' d).
Proof. intros []. constructor; cbn; auto. Qed.

Lemma step_sim t t' e e' t1 e1 b : tsim t t' -> e_gen e = e_gen e' -> fit_step M c t e = Ok (t1, e1, b) -> exists t1' e1', fit_step M c' t' e' = Ok (t1', e1', b) /\ tsim t1 t1' /\ e_gen e1 = e_gen e1'.
Proof.
  intros T EG H. unfold fit_step in *. apply rbind_ok in H. destruct H as [z [EZ H]]. rewrite (y_leaves _ _ T).
  assert (Z0 : zsim {| sc_tree := t; sc_env := e; sc_best := None; sc_stop := false |} {| sc_tree := t'; sc_env := e'; sc_best := None; sc_stop := false |}) by (constructor; cbn; auto; discriminate).
  destruct (scans_sim _ _ _ _ Z0 EZ) as (z' & EZ' & [ZT ZE ZB ZS ZD]).
  rewrite EZ'. cbn [rbind]. cbv zeta in *. rewrite ZB. apply rbind_ok in H. destruct H as [[[t3 e3] cont] [EC H]].
  assert (G : exists t3' e3', match move_best (sc_best z) with
            | Some (pos, id, x) =>
                if xlt x (Fin (tc_min_imp c')) then
                  do te <- node_split M c' (sc_tree z') id (sc_env z');
                  do nd <- nth_res (t_nodes (inc_splits (fst te))) id;
                  Ok (set_leaves (put_node (inc_splits (fst te)) id (with_preds nd None None (nd_pval nd)))
                        match nd_left nd, nd_right nd with Some l, Some r => remove_nth pos (t_leaves (inc_splits (fst te))) ++ [l; r] | _, _ => remove_nth pos (t_leaves (inc_splits (fst te))) end, snd te, true)
                else Ok (sc_tree z', sc_env z', false)
            | None => Ok (sc_tree z', sc_env z', false) end = Ok (t3', e3', cont) /\ tsim t3 t3' /\ e_gen e3 = e_gen e3').
  { destruct (sc_best z) as [[[pos id] x]|] eqn:SB; cbn [move_best option_map fst snd].
    2:{ assert (sc_tree z = t3 /\ sc_env z = e3 /\ false = cont) as (<- & <- & <-) by (repeat split; congruence). eauto. }
    change (Fin (tc_min_imp c')) with (move_x s (Fin (tc_min_imp c))). rewrite move_x_lt by auto. destruct (xlt x _).
    2:{ assert (sc_tree z = t3 /\ sc_env z = e3 /\ false = cont) as (<- & <- & <-) by (repeat split; congruence). eauto. }
    apply rbind_ok in EC. destruct EC as [[t2 e2] [E2 EC]]. destruct (split_sim _ _ _ _ (sc_env z') _ _ ZT (ZD _ _ _ eq_refl) ZE E2) as (t2' & e2' & E2' & T2 & G2). rewrite E2'. cbn [rbind fst snd] in *.
    apply rbind_ok in EC. destruct EC as [nd [A EC]]. apply nth_res_ok in A. cbn [inc_splits t_nodes] in A. destruct (Forall2_nth _ _ _ _ _ (y_nodes _ _ T2) A) as [nd' [A' N]].
    unfold nth_res. cbn [inc_splits t_nodes t_leaves]. rewrite A'. cbn [rbind]. rewrite (m_left _ _ N), (m_right _ _ N), (y_leaves _ _ T2).
    apply ok_pair_inv in EC. destruct EC as [EC <-]. apply pair_equal_spec in EC. destruct EC as [<- <-]. eexists _, _. split; [reflexivity|]. split; auto.
    assert (NW : nsim (with_preds nd None None (nd_pval nd)) (with_preds nd' None None (nd_pval nd'))).
    { destruct N. constructor; cbn; auto; [destruct m_caches0 as (_ & _ & ?)|destruct m_caches'0 as (_ & _ & ?)]; auto. }
    assert (T2' : tsim (inc_splits t2) (inc_splits t2')) by (destruct T2; constructor; cbn; auto).
    pose proof (put_sim _ _ id _ _ T2' NW) as T3. destruct T3. constructor; cbn in *; auto. }
  destruct G as (t3' & e3' & G & T3 & G3). cbv zeta in G. 
  match goal with |- exists _ _, (do tec <- ?m; _) = _ /\ _ => replace m with (Ok (t3', e3', cont)) by (symmetry; exact G) end. cbn [rbind].
  rewrite (depth_sim _ _ T3). apply rbind_ok in H. destruct H as [d [ED H]]. rewrite ED. cbn [rbind].
  apply ok_pair_inv in H. destruct H as [H <-]. apply pair_equal_spec in H. destruct H as [<- <-]. eexists _, _. split; [reflexivity|]. split; auto. now apply set_depth_sim.
Qed.

Lemma loop_sim fuel : forall t t' e e' t1 e1, tsim t t' -> e_gen e = e_gen e' -> fit_loop M c fuel t e = Ok (t1, e1) -> exists t1' e1', fit_loop M c' fuel t' e' = Ok (t1', e1') /\ tsim t1 t1'.
Proof.
  induction fuel as [|fuel IH]; intros t t' e e' t1 e1 T EG H; cbn [fit_loop] in *; change (tc_max_leaves c') with (tc_max_leaves c); rewrite (y_leaves _ _ T); apply rbind_ok in H; destruct H as [stop [E1 H]]; rewrite E1; cbn [rbind]; destruct stop.
  - apply ok_pair_inv in H. destruct H as [<- <-]. eauto.
  - discriminate H.
  - apply ok_pair_inv in H. destruct H as [<- <-]. eauto.
  - apply rbind_ok in H. destruct H as [[[t2 e2] b] [E2 H]]. destruct (step_sim _ _ _ e' _ _ _ T EG E2) as (t2' & e2' & E2' & T2 & G2). rewrite E2'. cbn [rbind].
    destruct b; [eapply IH; eauto|]. apply ok_pair_inv in H. destruct H as [<- <-]. eauto.
Qed.

Lemma rows_leaf_sim t t' : tsim t t' -> leaf_rows t' = leaf_rows t.
Proof.
  intros T. unfold leaf_rows. rewrite (y_leaves _ _ T). f_equal. apply map_ext. intros id. destruct (nth_error (t_nodes t) id) as [nd|] eqn:E.
  - destruct (Forall2_nth _ _ _ _ _ (y_nodes _ _ T) E) as [nd' [-> N]]. apply N.
  - destruct (nth_error (t_nodes t') id) as [nd'|] eqn:E'; auto. destruct (Forall2_nth' _ _ _ _ _ (y_nodes _ _ T) E') as [nd [E2 _]]. congruence.
Qed.

Lemma built_sim P e e' t : built P M c a e t -> exists t', built P M c' a' e' t' /\ tsim t t'.
Proof.
  intros (t0 & e0 & e1 & H1 & H2). destruct (new_spec _ _ _ _ _ _ H1) as (_ & _ & _ & _ & LEN). unfold tree_new in H1.
  apply rbind_ok in H1. destruct H1 as [[] [_ H1]]. apply rbind_ok in H1. destruct H1 as [fs [EF H1]]. apply rbind_ok in H1. destruct H1 as [[nd e2] [EN H1]]. cbn [fst snd] in H1. apply ok_pair_inv in H1. destruct H1 as [<- <-].
  assert (EFS : fs = train_feats a). { unfold train_feats. destruct (ta_feats a); [now injection EF as <-|]. apply rbind_ok in EF. destruct EF as [r0 [E0 EF]]. apply nth_res_ok in E0. injection EF as <-. rewrite (nth_error_nth _ _ _ E0). reflexivity. }
  assert (EF' : match ta_feats a' with Some l => Ok l | None => do r0 <- nth_res D' 0; Ok (arange (length r0)) end = Ok (train_feats a)).
  { rewrite <- (ma_feats _ _ _ _ MA). unfold train_feats. pose proof (ma_first _ _ _ _ MA) as MF. destruct (ta_feats a'); auto. specialize (MF eq_refl). destruct D'; [contradiction|]. reflexivity. }
  set (e3 := set_gen (set_seed P (ta_seed a) e) (seed_gen P (ta_seed a))) in *. set (e3' := set_gen (set_seed P (ta_seed a') e') (seed_gen P (ta_seed a'))).
  assert (EG : e_gen e3 = e_gen e3') by (unfold e3, e3'; cbn; now rewrite (ma_seed _ _ _ _ MA)).
  set (b0 := {| t_data := D; t_labels := L; t_n := length L; t_dd := ta_dd a; t_feats := fs; t_nodes := []; t_leaves := []; t_budget := ta_budget a; t_queries := 0; t_splits := 0; t_depth := 1 |}) in *.
  set (b0' := {| t_data := D'; t_labels := L'; t_n := length L'; t_dd := ta_dd a'; t_feats := train_feats a; t_nodes := []; t_leaves := []; t_budget := ta_budget a'; t_queries := 0; t_splits := 0; t_depth := 1 |}).
  assert (T0 : tsim b0 b0'). { constructor; cbn; auto; try apply MA. apply TR. }
  destruct (new_sim b0 b0' None (train_rows a) (train_rows a') 0 1%Qc (tc_nb c) e3 e3' nd e2 T0 (ma_rows _ _ _ _ MA) (tr_rows _ _ _ TR) (incl_refl _) (incl_refl _) EG (fun _ => eq_refl) EN) as (nd' & e2' & EN' & N & G2).
  assert (T1 : tsim (set_nodes b0 [nd]) (set_nodes b0' [nd'])). { destruct T0. constructor; cbn in *; auto. }
  unfold tree_fit in H2. cbn [rbind] in H2. assert (MK : (match tc_bin c with LINEAR | IDENTITY => false | _ => tc_make_discrete c end) = false) by (destruct BT as [B|B]; rewrite B; reflexivity). rewrite MK in H2. cbn [rbind] in H2.
  rewrite (tr_splitter _ _ _ TR) in H2. set (t1 := set_leaves (set_nodes b0 [nd]) (t_leaves (set_nodes b0 [nd]) ++ [0])) in *. set (t1' := set_leaves (set_nodes b0' [nd']) (t_leaves (set_nodes b0' [nd']) ++ [0])).
  assert (T2 : tsim t1 t1'). { destruct T1. constructor; cbn in *; auto. }
  destruct (loop_sim _ t1 t1' e2 e2' t e1 T2 G2 H2) as (t' & e4 & HL & TT). exists t'. split; auto. exists (set_nodes b0' [nd']), e2', e4. split.
  - unfold tree_new. rewrite (ma_len _ _ _ _ MA), Nat.eqb_refl. cbn [guard rbind]. cbv zeta. rewrite EF'. cbn [rbind]. fold e3'. change (match ta_idcs a' with Some l => l | None => arange (length L') end) with (train_rows a'). fold b0'.
    change (tc_nb c') with (tc_nb c). rewrite EN'. reflexivity.
  - unfold tree_fit. cbn [rbind]. change (tc_bin c') with (tc_bin c). change (tc_make_discrete c') with (tc_make_discrete c). rewrite MK. cbn [rbind]. change (tc_splitter c') with (tc_splitter c). rewrite (tr_splitter _ _ _ TR).
    cbv zeta. fold t1'. rewrite (rows_leaf_sim _ _ T2). exact HL.
Qed.

(** ** Predictions *)
Lemma walk_sim t t' x : tsim t t' -> forall fuel id, walk (t_nodes t') fuel id (move_row u x) = walk (t_nodes t) fuel id x.
Proof.
  intros T. assert (Z : forall id, match nth_error (t_nodes t) id with Some nd => exists nd', nth_error (t_nodes t') id = Some nd' /\ nsim nd nd' | None => nth_error (t_nodes t') id = None end).
  { intros id. destruct (nth_error (t_nodes t) id) as [nd|] eqn:E; [exact (Forall2_nth _ _ _ _ _ (y_nodes _ _ T) E)|].
    destruct (nth_error (t_nodes t') id) as [nd'|] eqn:E'; auto. destruct (Forall2_nth' _ _ _ _ _ (y_nodes _ _ T) E') as [nd [E2 _]]. congruence. }
  induction fuel as [|fuel IH]; intros id; cbn [walk]; unfold nth_res; specialize (Z id); destruct (nth_error (t_nodes t) id) as [nd|]; [destruct Z as [nd' [-> N]]|rewrite Z; reflexivity|destruct Z as [nd' [-> N]]|rewrite Z; reflexivity]; cbn [rbind]; rewrite (m_left _ _ N), (m_right _ _ N); [reflexivity|].
  destruct (nd_left nd) as [l|]; auto. rewrite (m_sf _ _ N), (m_sv _ _ N). destruct (nd_sf nd) as [k|] eqn:SF; auto. cbn [opt_res rbind]. destruct (nd_sv nd) as [v|]; auto. cbn [option_map opt_res rbind].
  rewrite move_row_nth. destruct (nth_error x k) as [xv|]; auto. cbn [option_map rbind]. rewrite incr_qle by (apply RS; eapply m_sfw; eauto). destruct (qle xv v); auto. destruct (nd_right nd); auto. apply IH.
Qed.
Lemma walk_end ns x : forall fuel id leaf, walk ns fuel id x = Ok leaf -> exists nd, nth_error ns leaf = Some nd /\ nd_left nd = None.
Proof.
  induction fuel as [|fuel IH]; intros id leaf H; cbn [walk] in H; apply rbind_ok in H; destruct H as [nd [E H]]; apply nth_res_ok in E; destruct (nd_left nd) as [l|] eqn:EL; try discriminate.
  - destruct (nd_right nd); [discriminate|]. injection H as <-. eauto.
  - apply rbind_ok in H. destruct H as [f [_ H]]. apply rbind_ok in H. destruct H as [v [_ H]]. apply rbind_ok in H. destruct H as [xv [_ H]]. destruct (qle xv v); [eauto|]. apply rbind_ok in H. destruct H as [r [_ H]]. eauto.
  - destruct (nd_right nd); [discriminate|]. injection H as <-. eauto.
Qed.
Lemma idx_sim d i : idx_to_class (map (fun p : Qc * nat => (g (fst p), snd p)) d) i = option_map g (idx_to_class d i).
Proof. induction d as [|[k v] d IH]; cbn; auto. rewrite IH. destruct (idx_to_class d i); cbn; auto. destruct (v =? i); reflexivity. Qed.

Lemma predict_sim t t' x : tsim t t' -> answer (tree_predict c' t' (move_row u x)) = move_answer g (answer (tree_predict c t x)).
Proof.
  intros T. unfold tree_predict. assert (LN : length (t_nodes t') = length (t_nodes t)) by (symmetry; eapply Forall2_length; apply T). rewrite LN, (walk_sim t t' x T).
  destruct (walk (t_nodes t) (length (t_nodes t)) 0 x) as [id|] eqn:EW; cbn [rbind]; [|reflexivity]. destruct (walk_end _ _ _ _ _ EW) as [nd [E LF]]. destruct (Forall2_nth _ _ _ _ _ (y_nodes _ _ T) E) as [nd' [E' N]].
  unfold nth_res. rewrite E, E'. cbn [rbind]. change (tc_class c') with (tc_class c). destruct (m_caches _ _ N) as (P1 & P2 & P3). destruct (m_caches' _ _ N) as (P1' & P2' & P3'). rewrite P1, P1', P3, P3'. rewrite (m_counts _ _ N).
  case_eq (tc_class c); intros IC.
  - destruct (argmax _) as [i|]; cbn [rbind answer]; auto. cbn [move_cfg tc_classes]. rewrite idx_sim. destruct (idx_to_class (tc_classes c) i) as [l|]; cbn [option_map opt_res rbind]; auto.
    match goal with |- context [guard ?b _] => destruct b end; reflexivity.
  - destruct (m_data _ _ N) as [(_ & _ & _ & _ & Z)|(_ & Q1 & _ & Q2)]; [congruence|]. rewrite Q1, Q2. cbn [opt_res rbind]. pose proof (labels_sim _ _ (m_rows _ _ N)) as PL.
    assert (LL : length (labels_at L' (nd_idcs nd')) = length (labels_at L (nd_idcs nd))) by (unfold labels_at; rewrite !map_length; apply rows_len, N). rewrite LL.
    assert (NZ : labels_at L (nd_idcs nd) <> []) by (pose proof (m_ne _ _ N); unfold labels_at; destruct (nd_idcs nd); [contradiction|discriminate]).
    destruct (length (labels_at L (nd_idcs nd)) =? 0); cbn [negb guard rbind answer move_answer move_pred]; auto. do 2 f_equal. change qmean with mean. rewrite <- (mean_perm _ _ PL).
    pose proof RL as RL1. unfold relabelling in RL1. rewrite IC in RL1. destruct RL1 as (k & d & _ & _ & HG). rewrite HG, (map_ext g (fun y => k * y + d)%Qc) by auto. now apply mean_affine.
Qed.

Lemma tsim_same t t' : tsim t t' -> same_tree u s t t'.
Proof.
  intros [? ? ? ? ? ? ? ? ? ? ? ? ? ? F]. constructor; auto. clear - F. induction F as [|nd nd' l l' N F IH]; constructor; auto. destruct N. constructor; auto.
Qed.

Theorem moved_tree P e e' t : built P M c a e t -> exists t', built P M c' a' e' t' /\ same_tree u s t t' /\
  forall x, answer (tree_predict c' t' (move_row u x)) = move_answer g (answer (tree_predict c t x)).
Proof. intros H. destruct (built_sim P e e' t H) as (t' & H' & T). exists t'. split; auto. split; [now apply tsim_same|]. intros x. now apply predict_sim. Qed.
End Sim.

(** ** The three changes one at a time *)
Lemma same_row x : move_row same_units x = x.
Proof. apply list_ext. intros i. rewrite move_row_nth. destruct (nth_error x i); reflexivity. Qed.
Lemma same_cfg c : move_cfg same_units (fun y => y) 1%Qc c = c.
Proof.
  unfold move_cfg. rewrite Qcmult_1_l. replace (map (fun p : Qc * nat => (fst p, snd p)) (tc_classes c)) with (tc_classes c) by (rewrite <- (map_id (tc_classes c)) at 1; apply map_ext; intros []; reflexivity).
  replace (option_map (fun p : list Qc * list Qc => (move_row same_units (fst p), move_row same_units (snd p))) (tc_minmax c)) with (tc_minmax c); [destruct c; reflexivity|].
  destruct (tc_minmax c) as [[mn mx]|]; cbn [option_map fst snd]; auto. now rewrite !same_row.
Qed.
Lemma same_rescaling bt W : rescaling bt W same_units.
Proof. intros f _. split; [intros x y H; exact H|]. intros _. exists 1%Qc, 0%Qc. intros x. unfold same_units. ring. Qed.
Lemma same_relabelling c : relabelling c (fun y => y) 1%Qc.
Proof. unfold relabelling. destruct (tc_class c); [auto|]. exists 1%Qc, 0%Qc. split; [discriminate|]. split; [ring|]. intros y. ring. Qed.
Lemma same_answer r : move_answer (fun y => y) r = r.
Proof. destruct r as [[]|]; reflexivity. Qed.
Lemma train_nonempty c a W : trainable c a W -> ta_data a <> [].
Proof.
  intros T E. pose proof (tr_rows _ _ _ T) as H. pose proof (tr_rows_in _ _ _ T) as H1. rewrite (tr_len _ _ _ T), E in H1. destruct (train_rows a) as [|i l]; auto. specialize (H1 i (or_introl eq_refl)). cbn in H1. lia.
Qed.

Lemma moved_order a a' : ta_data a' <> [] -> reordered a a' -> moved_args same_units (fun y => y) a a'.
Proof.
  intros NE []. constructor; auto. replace (map (fun i => (move_row same_units (nth i (ta_data a) []), nth i (ta_labels a) 0%Qc)) (train_rows a)) with (map (fun i => (nth i (ta_data a) [], nth i (ta_labels a) 0%Qc)) (train_rows a)); auto.
  apply map_ext. intros i. now rewrite same_row.
Qed.
Lemma move_row_nil u : move_row u [] = [].
Proof. reflexivity. Qed.
Lemma moved_scale c a W u : trainable c a W -> moved_args u (fun y => y) a (rescale_args u a).
Proof.
  intros T. constructor; cbn [rescale_args ta_data ta_labels ta_budget ta_dd ta_seed]; auto.
  - change (train_rows (rescale_args u a)) with (train_rows a). match goal with |- Permutation ?l ?l' => replace l' with l end; [apply Permutation_refl|].
    apply map_ext. intros i. f_equal. rewrite <- (move_row_nil u) at 2. now rewrite map_nth.
  - rewrite map_length. symmetry. apply T.
  - intros i Hi. now apply (tr_rows_in _ _ _ T).
  - unfold train_feats. cbn [rescale_args ta_data ta_feats]. destruct (ta_feats a); auto. f_equal. rewrite <- (move_row_nil u), map_nth, move_row_length. reflexivity.
  - intros _ E. apply (train_nonempty _ _ _ T). destruct (ta_data a); [auto|discriminate].
Qed.
Lemma moved_label c a W g : trainable c a W -> moved_args same_units g a (relabel_args g a).
Proof.
  intros T. constructor; cbn [relabel_args ta_data ta_labels ta_budget ta_dd ta_seed]; auto.
  - assert (E : train_rows (relabel_args g a) = train_rows a) by (unfold train_rows; cbn [relabel_args ta_idcs ta_labels]; now rewrite map_length). rewrite E.
    match goal with |- Permutation ?l ?l' => replace l' with l end; [apply Permutation_refl|]. apply map_ext_in. intros i Hi. rewrite same_row. f_equal.
    rewrite (nth_indep (map g (ta_labels a)) 0%Qc (g 0%Qc)) by (rewrite map_length; now apply (tr_rows_in _ _ _ T)). now rewrite map_nth.
  - now rewrite map_length.
  - rewrite map_length. symmetry. apply T.
  - intros i Hi. rewrite map_length. apply (tr_rows_in _ _ _ T). revert Hi. unfold train_rows. cbn [relabel_args ta_idcs ta_labels]. now rewrite map_length.
  - intros _. apply (train_nonempty _ _ _ T).
Qed.

Lemma reordered_tree P M c a a' W e e' t : trainable c a W -> fixed_grid c -> (tc_class c = true -> good_classes (tc_classes c)) -> reordered a a' -> built P M c a e t ->
  exists t', built P M c a' e' t' /\ same_tree same_units 1 t t' /\ forall x, answer (tree_predict c t' x) = answer (tree_predict c t x).
Proof.
  intros T (S1 & S2 & S3) GC R H. assert (NE : ta_data a' <> []).
  { intros E. pose proof (ro_len _ _ R) as Q. rewrite E, (ro_n _ _ R), (tr_len _ _ _ T) in Q. apply (train_nonempty _ _ _ T). destruct (ta_data a); [auto|discriminate]. }
  destruct (moved_tree M c a a' same_units (fun y => y) 1%Qc W T (moved_order a a' NE R) S1 S2 S3 (same_rescaling _ _) (same_relabelling c) GC P e e' t H) as (t' & B & ST & A).
  rewrite same_cfg in B. exists t'. split; auto. split; auto. intros x. specialize (A x). rewrite same_cfg, same_row, same_answer in A. exact A.
Qed.
Lemma rescaled_tree P M c a W u e e' t : trainable c a W -> fixed_grid c -> (tc_class c = true -> good_classes (tc_classes c)) -> rescaling (tc_bin c) W u -> built P M c a e t ->
  exists t', built P M (rescale_cfg u c) (rescale_args u a) e' t' /\ same_tree u 1 t t' /\ forall x, answer (tree_predict (rescale_cfg u c) t' (move_row u x)) = answer (tree_predict c t x).
Proof.
  intros T (S1 & S2 & S3) GC R H.
  destruct (moved_tree M c a (rescale_args u a) u (fun y => y) 1%Qc W T (moved_scale c a W u T) S1 S2 S3 R (same_relabelling c) GC P e e' t H) as (t' & B & ST & A).
  exists t'. split; auto. split; auto. intros x. specialize (A x). rewrite same_answer in A. exact A.
Qed.
Lemma relabelled_tree P M c a W g s e e' t : trainable c a W -> fixed_grid c -> (tc_class c = true -> good_classes (tc_classes c)) -> relabelling c g s -> built P M c a e t ->
  exists t', built P M (relabel_cfg g s c) (relabel_args g a) e' t' /\ same_tree same_units s t t' /\ forall x, answer (tree_predict (relabel_cfg g s c) t' x) = move_answer g (answer (tree_predict c t x)).
Proof.
  intros T (S1 & S2 & S3) GC R H.
  destruct (moved_tree M c a (relabel_args g a) same_units g s W T (moved_label c a W g T) S1 S2 S3 (same_rescaling _ _) R GC P e e' t H) as (t' & B & ST & A).
  exists t'. split; auto. split; auto. intros x. specialize (A x). rewrite same_row in A. exact A.
Qed.

(** Drawing rows, inserting them and scoring: what one call of sample_targets does. *)
From Coq Require Import List Arith Bool ZArith QArith Qcanon Lia Permutation Sorted.
From Verif Require Import Base Num Rng Histogram Utils Criteria Solvers Spec NumFacts ListFacts HistFacts HistAdd CritFacts ReductionFacts MakeHist SampleFacts HistProps HistProps2 ExactFacts ExactTotal.
Import ListNotations.
Local Open Scope nat_scope.

(** ** Random picks *)
Lemma pick_k_spec k : forall pool t, k <= length pool ->
  exists rest, Permutation pool (fst (pick_k k pool t) ++ rest) /\ length (fst (pick_k k pool t)) = k.
Proof.
  induction k as [|k IH]; intros pool t H; cbn.
  - exists pool. auto.
  - destruct (draw t) as [a t1]. set (i := a mod length pool).
    assert (Hi : i < length pool) by (apply Nat.mod_upper_bound; lia).
    destruct (nth_error pool i) as [x|] eqn:E; [|apply nth_error_None in E; lia].
    pose proof (remove_nth_perm i pool x E) as P.
    destruct (IH (remove_nth i pool) t1) as [rest [P2 L2]].
    { pose proof (remove_nth_length i pool Hi). lia. }
    destruct (pick_k k (remove_nth i pool) t1) as [l t2]. cbn in *.
    rewrite (nth_error_nth pool i 0 E). exists rest. split; [|now rewrite L2].
    cbn. eapply Permutation_trans; [exact P|]. now constructor.
Qed.

Lemma arange_in n i : In i (arange n) <-> i < n.
Proof. unfold arange. rewrite in_seq. lia. Qed.
Lemma arange_nodup n : NoDup (arange n).
Proof. apply seq_NoDup. Qed.

Lemma choice_norepl_spec m k t l t' : choice_norepl (arange m) k t = Ok (l, t') ->
  NoDup l /\ (forall i, In i l -> i < m) /\ length l = k /\ k <= m.
Proof.
  unfold choice_norepl. rewrite arange_length. destruct (m <? k) eqn:E; [discriminate|]. apply Nat.ltb_ge in E.
  intros H. injection H as H. destruct (pick_k_spec k (arange m) t) as [rest [P L]]; [now rewrite arange_length|].
  rewrite H in *. cbn in *. assert (ND : NoDup (l ++ rest)) by (eapply Permutation_NoDup; [exact P|apply arange_nodup]).
  repeat split; auto.
  - clear - ND. induction l; cbn in *; constructor; inversion ND; subst; auto. intro. apply H1. apply in_or_app. auto.
  - intros i I. apply arange_in. eapply Permutation_in; [apply Permutation_sym; exact P|]. apply in_or_app. auto.
Qed.

Lemma draws_mod_spec m k : forall t, length (fst (draws_mod m k t)) = k /\ (0 < m -> forall i, In i (fst (draws_mod m k t)) -> i < m).
Proof.
  induction k as [|k IH]; intros t; cbn; [split; auto; intros _ i []|].
  destruct (draw t) as [a t1]. specialize (IH t1). destruct (draws_mod m k t1) as [l t2]. cbn in *.
  destruct IH as [L H]. split; [now rewrite L|]. intros P i [<-|I]; auto. apply Nat.mod_upper_bound. lia.
Qed.
Lemma choice_repl_spec m k t l t' : choice_repl (arange m) k t = Ok (l, t') -> length l = k /\ forall i, In i l -> i < m.
Proof.
  unfold choice_repl. rewrite arange_length. destruct ((m =? 0) && negb (k =? 0)) eqn:E; [discriminate|].
  pose proof (draws_mod_spec m k t) as [L H]. destruct (draws_mod m k t) as [l0 t0]. cbn in *. intros Q. injection Q as <- <-.
  rewrite map_length. split; auto. intros i I. apply in_map_iff in I. destruct I as [j [<- I]].
  destruct (Nat.eq_dec m 0) as [->|].
  - cbn in E. destruct k; [|discriminate]. destruct l0; [destruct I|discriminate].
  - assert (j < m) by (apply H; auto; lia). unfold arange. rewrite seq_nth; lia.
Qed.

Lemma draw_rows_none N batch t idcs ps pop' t' : draw_rows N batch None t = Ok (idcs, ps, pop', t') ->
  pop' = None /\ (forall i, In i idcs -> i < N) /\ length idcs = Nat.min N batch /\
  (N <= batch -> idcs = arange N /\ ps = Some N) /\ (batch < N -> ps = None).
Proof.
  unfold draw_rows. destruct (N <=? batch) eqn:E.
  - apply Nat.leb_le in E. intros H. injection H as <- <- <- <-. split; auto. split; [intros; now apply arange_in|].
    rewrite arange_length. split; [lia|]. split; auto. lia.
  - apply Nat.leb_gt in E. intros H. apply rbind_ok in H. destruct H as [[l t2] [E1 H]]. injection H as <- <- <- <-. cbn.
    apply choice_repl_spec in E1. destruct E1. split; auto. split; auto. split; [lia|]. split; [lia|auto].
Qed.

Lemma nth_map_arange (P : list nat) : P = map (fun i => nth i P 0) (arange (length P)).
Proof.
  apply list_ext. intros i. rewrite nth_error_map. unfold arange.
  destruct (le_lt_dec (length P) i).
  - rewrite (proj2 (nth_error_None P i)) by auto. rewrite (proj2 (nth_error_None (seq 0 (length P)) i)); auto. now rewrite seq_length.
  - rewrite (nth_error_nth' P 0) by auto. rewrite (nth_error_nth' (seq 0 (length P)) 0) by now rewrite seq_length.
    rewrite seq_nth by auto. reflexivity.
Qed.

Lemma take_idx_nth {A} (l : list A) d idcs l' : take_idx l idcs = Ok l' ->
  l' = map (fun i => nth i l d) idcs /\ forall i, In i idcs -> i < length l.
Proof.
  unfold take_idx. intros H. apply mapM_Forall2 in H. induction H as [|i a idcs l' H F [IH1 IH2]]; cbn.
  - split; auto. intros i [].
  - apply nth_res_ok in H. rewrite (nth_error_nth l i d H), <- IH1. split; auto.
    intros j [<-|J]; auto. apply nth_error_Some. congruence.
Qed.
Lemma take_idx_total {A} (l : list A) idcs : (forall i, In i idcs -> i < length l) -> exists l', take_idx l idcs = Ok l'.
Proof. intros H. apply mapM_total. intros i I. now apply nth_res_lt, H. Qed.

Lemma combine_nth_rows (data : list (list Qc)) (labels : list Qc) idcs :
  length labels = length data -> (forall i, In i idcs -> i < length data) ->
  combine (map (fun i => nth i data []) idcs) (map (fun i => nth i labels 0%Qc) idcs) =
  map (fun i => nth i (combine data labels) ([], 0%Qc)) idcs.
Proof.
  intros L H. induction idcs as [|i idcs IH]; cbn; auto. rewrite IH by (intros; apply H; now right).
  f_equal. rewrite combine_nth; auto.
Qed.

Lemma map_snd_filter_combine (P : list nat) (p : nat -> bool) :
  map snd (filter (fun ip => p (fst ip)) (combine (seq 0 (length P)) P)) =
  map (fun i => nth i P 0) (filter p (arange (length P))).
Proof.
  assert (G : forall Q k, (forall i, nth i Q 0 = nth (k + i) P 0) ->
     map snd (filter (fun ip => p (fst ip)) (combine (seq k (length Q)) Q)) = map (fun i => nth i P 0) (filter p (seq k (length Q)))).
  { induction Q as [|a Q IH]; intros k H; cbn; auto.
    assert (R : map snd (filter (fun ip => p (fst ip)) (combine (seq (S k) (length Q)) Q)) = map (fun i => nth i P 0) (filter p (seq (S k) (length Q)))).
    { apply IH. intros i. specialize (H (S i)). cbn in H. rewrite H. f_equal. lia. }
    specialize (H 0). cbn in H. rewrite Nat.add_0_r in H. destruct (p k); cbn; rewrite R; [now rewrite H|auto]. }
  apply (G P 0). auto.
Qed.

Lemma draw_rows_some N batch P t idcs ps pop' t' : draw_rows N batch (Some P) t = Ok (idcs, ps, pop', t') ->
  ps = Some N /\ exists rest, pop' = Some rest /\ Permutation P (idcs ++ rest) /\ length idcs = Nat.min (length P) batch.
Proof.
  unfold draw_rows. intros H. apply rbind_ok in H. destruct H as [[l t2] [E1 H]].
  apply rbind_ok in H. destruct H as [sample [E2 H]]. cbn [fst snd] in *.
  injection H as <- <- <- <-. split; auto. eexists. split; [reflexivity|].
  assert (HL : NoDup l /\ (forall i, In i l -> i < length P) /\ length l = Nat.min (length P) batch).
  { destruct (length P <=? batch) eqn:E.
    - apply Nat.leb_le in E. injection E1 as <- <-. split; [apply arange_nodup|]. split; [intros; now apply arange_in|]. rewrite arange_length. lia.
    - apply Nat.leb_gt in E. apply choice_norepl_spec in E1. destruct E1 as [? [? [? ?]]]. split; auto. split; auto. lia. }
  destruct HL as [ND [IN LL]]. destruct (take_idx_nth P 0 l sample E2) as [-> _].
  rewrite map_length. split; auto.
  rewrite (map_snd_filter_combine P (fun i => negb (existsb (Nat.eqb i) l))), <- map_app.
  rewrite (nth_map_arange P) at 1. apply Permutation_map.
  eapply Permutation_trans; [apply (filter_split_perm (fun i => existsb (Nat.eqb i) l))|].
  apply Permutation_app; [|apply Permutation_refl].
  apply NoDup_Permutation; auto. { apply NoDup_filter, arange_nodup. }
  intros i. rewrite filter_In, arange_in, existsb_exists. split.
  - intros [_ [j [J Q]]]. apply Nat.eqb_eq in Q. now subst.
  - intros I. split; auto. exists i. split; auto. apply Nat.eqb_refl.
Qed.

(** ** A histogram that has received the rows T *)
Definition rows_at (data : list (list Qc)) (labels : list Qc) (I : list nat) : table :=
  map (fun i => nth i (combine data labels) ([], 0%Qc)) I.

Definition regr_counts (h : hist) (edges : list Qc) (T : table) : Prop :=
  (forall b e, nth_error edges b = Some e ->
     (exists p, nth_error (h_lpile h) b = Some p /\ p_n p = length (left_part (h_feat h) e T)
        /\ p_mean p = mean (labels_of (left_part (h_feat h) e T))) /\
     (exists p, nth_error (h_rpile h) b = Some p /\ p_n p = length (right_part (h_feat h) e T)
        /\ p_mean p = mean (labels_of (right_part (h_feat h) e T)))) /\
  p_n (h_cpile h) = length T /\ p_mean (h_cpile h) = mean (labels_of T) /\
  length (h_lpile h) = h_nb h /\ length (h_rpile h) = h_nb h.

Definition received (h : hist) (edges : list Qc) (T : table) : Prop :=
  agrees h edges /\ length edges = h_nb h /\
  if h_class h then class_inv h edges T /\ NoDup (h_classes h) /\ incl (labels_of T) (h_classes h) /\ h_cpile h = pile0
  else regr_counts h edges T.

Record state_for (ic : bool) (cl : list Qc) (f : nat) (T : table) (h : hist) : Prop := {
  sf_class : h_class h = ic;
  sf_feat : h_feat h = f;
  sf_classes : h_classes h = cl;
  sf_rows : match h_edges h with Some edges => received h edges T | None => h_nb h = 0 end
}.

Lemma hist_for_state ic cl f h : hist_for ic cl f h -> (ic = true -> NoDup cl) -> state_for ic cl f [] h.
Proof.
  intros [F1 F2 F3 F4 F5] ND. split; auto. destruct (h_edges h) as [e|] eqn:E.
  - specialize (F5 e eq_refl). split; auto. destruct F4 as [FC F]. rewrite E in F. destruct F as [L F]. split; auto.
    destruct (h_class h) eqn:C.
    + split; [apply class_inv_fresh; auto; unfold fresh; rewrite E, C; auto|]. rewrite F3. split; [apply ND; congruence|].
      split; auto. intros x [].
    + destruct F as [FL FR]. unfold regr_counts. rewrite FL, FR, FC. rewrite !repeat_length. split; auto.
      intros b x N. assert (b < h_nb h) by (rewrite <- L; apply nth_error_Some; congruence).
      rewrite (nth_error_nth' (repeat pile0 (h_nb h)) pile0) by now rewrite repeat_length. rewrite nth_repeat.
      split; exists pile0; auto.
  - destruct F4 as [_ F4]. now rewrite E in F4.
Qed.

Lemma hist_add_state ic cl f T h X Y h' : state_for ic cl f T h -> hist_add h X Y = Ok h' ->
  length X = length Y /\ state_for ic cl f (T ++ combine X Y) h' /\ h_edges h' = h_edges h /\ h_nb h' = h_nb h /\ h_edges h <> None.
Proof.
  intros [F1 F2 F3 F4] H. destruct (hist_add_same _ _ _ _ H) as [S1 [S2 [S3 [S4 [S5 [S6 [S7 S8]]]]]]].
  destruct (hist_add_edges _ _ _ _ H) as [e E]. rewrite E in F4. destruct F4 as [A [L F4]].
  assert (NE : h_edges h <> None) by congruence.
  destruct (h_class h) eqn:C.
  - destruct F4 as [I [ND [IN CP]]]. destruct (hist_add_class h X Y h' e T H C E A ND I) as [LL I'].
    split; auto. split; auto. split; try congruence. rewrite S8, E. split; [eapply agrees_same; eauto|]. split; [congruence|].
    rewrite S1. split; auto. rewrite S3. split; auto. split.
    + rewrite labels_of_app. apply incl_app; auto. unfold labels_of. rewrite map_snd_combine by lia.
      eapply hist_add_labels; eauto.
    + unfold hist_add in H. rewrite C in H. inv_ok H. subst h'. cbn. exact CP.
  - assert (AR := add_all_regr e [(X, Y)] h T h'). unfold add_all in AR. cbn in AR. rewrite H in AR.
    destruct (hist_add_regr _ _ _ _ _ H C E A) as [LL [_ [_ [_ [L1 [L2 _]]]]]].
    split; auto. split; auto. split; try congruence. rewrite S8, E. split; [eapply agrees_same; eauto|]. split; [congruence|].
    rewrite S1. destruct F4 as [G1 [G2 [G3 [G4 G5]]]]. destruct AR as [K1 [K2 K3]]; auto.
    unfold rows_of in *. cbn in *. rewrite app_nil_r in *. split; auto. split; auto. split; auto. split; congruence.
Qed.

Lemma state_shaped ic cl f T h : state_for ic cl f T h -> h_edges h <> None -> shaped h.
Proof.
  intros [F1 F2 F3 F4] N. destruct (h_edges h) as [e|] eqn:E; [|contradiction]. exists e. split; auto.
  destruct F4 as [A [L F4]]. split; auto. destruct (h_class h).
  - destruct F4 as [[I1 I2] _]. rewrite I1, I2. unfold lcounts, rcounts. rewrite !map_length. auto.
  - destruct F4 as [_ [_ [_ F4]]]. exact F4.
Qed.

(** Scores of a classification histogram. *)
Lemma reductions_lengths M m h bs ps rv : get_impurity_reductions M m h bs ps = Ok rv ->
  length (fst rv) = length bs /\ length (snd rv) = length bs.
Proof.
  unfold get_impurity_reductions. intros H. apply rbind_ok in H. destruct H as [[] [_ H]]. destruct (h_class h).
  - apply rbind_ok in H. destruct H as [l0 [_ H]]. apply rbind_ok in H. destruct H as [r0 [_ H]].
    apply rbind_ok in H. destruct H as [sides [ES H]]. apply mapM_length in ES.
    destruct (rev sides) as [|[ab ln] rs]; [discriminate|].
    apply rbind_ok in H. destruct H as [c [_ H]]. injection H as <-. cbn. now rewrite !map_length.
  - apply rbind_ok in H. destruct H as [l0 [_ H]]. apply rbind_ok in H. destruct H as [r0 [_ H]].
    apply rbind_ok in H. destruct H as [sides [ES H]]. apply mapM_length in ES.
    apply rbind_ok in H. destruct H as [c [_ H]]. injection H as <-. cbn. now rewrite !map_length.
Qed.

Lemma state_scores M m cl f T h bs ps rv j b ir :
  state_for true cl f T h -> get_impurity_reductions M m h bs ps = Ok rv ->
  nth_error bs j = Some b -> nth_error (fst rv) j = Some ir ->
  exists e edges, h_edges h = Some edges /\ nth_error edges b = Some e /\ ir = reduction (class_imp M m) T f e.
Proof.
  intros [F1 F2 F3 F4] H Hb Hi. destruct (h_edges h) as [edges|] eqn:E.
  - destruct F4 as [A [L F4]]. rewrite F1 in F4. destruct F4 as [I [ND [IN _]]].
    destruct rv as [irs vs]. destruct (class_reductions_spec _ _ _ _ _ _ _ _ _ F1 I ND IN H) as [_ [_ K]].
    destruct (K j b ir Hb Hi) as [e [E1 E2]]. exists e, edges. rewrite <- F2. auto.
  - exfalso. unfold get_impurity_reductions in H. apply rbind_ok in H. destruct H as [[] [G _]]. apply guard_ok in G.
    apply Nat.leb_le in G. rewrite F4 in G. destruct bs; [destruct j; discriminate|cbn in G; lia].
Qed.

(** ** The loop over features, with everything it produces *)
Definition scored (M : math) (m : measure) (ps : option nat) (hs' : list hist) (f b : nat) (ir : Qc) (v : xn) : Prop :=
  exists h' bs rv j, nth_error hs' f = Some h' /\ get_impurity_reductions M m h' bs ps = Ok rv /\
    nth_error bs j = Some b /\ nth_error (fst rv) j = Some ir /\ nth_error (snd rv) j = Some v.

Lemma st_fold2 M m X Y ps : forall g s s',
  foldM (st_step M m X Y ps) s g = Ok s' -> NoDup (map fst g) ->
  length (st_hists s') = length (st_hists s) /\
  (forall f, ~ In f (map fst g) -> nth_error (st_hists s') f = nth_error (st_hists s) f) /\
  (forall f, In f (map fst g) -> exists h h', nth_error (st_hists s) f = Some h /\ hist_add h X Y = Ok h' /\ nth_error (st_hists s') f = Some h') /\
  st_q s' = st_q s + length g * length X /\
  exists irs vs, st_ir s' = st_ir s ++ map Fin irs /\ st_cb s' = st_cb s ++ map (xsqrt M) vs /\
    length irs = length (flatten g) /\ length vs = length (flatten g) /\
    forall i f b, nth_error (flatten g) i = Some (f, b) ->
      exists ir v, nth_error irs i = Some ir /\ nth_error vs i = Some v /\ scored M m ps (st_hists s') f b ir v.
Proof.
  induction g as [|[f bs] g IH]; intros s s' H ND; cbn in H.
  - injection H as <-. split; auto. split; auto. split; [intros f []|]. split; [cbn; lia|].
    exists [], []. cbn. rewrite !app_nil_r. repeat split; auto. intros [|i]; discriminate.
  - apply rbind_ok in H. destruct H as [s1 [E H]]. inversion ND as [|x l N ND']; subst.
    unfold st_step in E. cbn [fst snd] in E.
    apply rbind_ok in E. destruct E as [h [E1 E]]. apply rbind_ok in E. destruct E as [h' [E2 E]].
    apply rbind_ok in E. destruct E as [rv [E3 E]]. injection E as <-. apply nth_res_ok in E1.
    destruct (IH _ _ H ND') as [A1 [A2 [A3 [A4 [irs [vs [A5 [A6 [A7 [A8 A9]]]]]]]]]].
    cbn [st_hists st_ir st_cb st_q] in *. rewrite set_nth_length in A1. split; auto.
    assert (HF : nth_error (st_hists s') f = Some h').
    { rewrite A2 by auto. rewrite set_nth_nth, Nat.eqb_refl, E1. reflexivity. }
    split; [|split; [|split]].
    + intros f' I. rewrite A2 by (intro; apply I; now right). rewrite set_nth_nth. destruct (f' =? f) eqn:Q; auto.
      apply Nat.eqb_eq in Q. subst. destruct I. now left.
    + intros f' [<-|I]; [exists h, h'; auto|].
      destruct (A3 f' I) as [h1 [h2 [B1 [B2 B3]]]]. exists h1, h2. split; auto. rewrite set_nth_nth in B1.
      destruct (f' =? f) eqn:Q; auto. apply Nat.eqb_eq in Q. subst. contradiction.
    + rewrite A4. cbn. lia.
    + destruct (reductions_lengths _ _ _ _ _ _ E3) as [L1 L2].
      exists (fst rv ++ irs), (snd rv ++ vs). unfold flatten in *. cbn [map concat fst snd].
      rewrite !map_app, !app_assoc, <- A5, <- A6. rewrite !app_length, map_length, A7, A8, L1, L2. repeat split; auto.
      intros i f' b K. destruct (le_lt_dec (length bs) i) as [Le|Lt].
      * rewrite nth_error_app2 in K by now rewrite map_length. rewrite map_length in K.
        rewrite !nth_error_app2 by lia. rewrite L1, L2. now apply A9.
      * rewrite nth_error_app1 in K by now rewrite map_length. rewrite nth_error_map in K.
        destruct (nth_error bs i) as [b0|] eqn:K3; [|discriminate]. cbn in K. injection K as <- <-.
        rewrite !nth_error_app1 by lia.
        destruct (nth_error (fst rv) i) as [ir|] eqn:Q1; [|apply nth_error_None in Q1; lia].
        destruct (nth_error (snd rv) i) as [v|] eqn:Q2; [|apply nth_error_None in Q2; lia].
        exists ir, v. split; auto. split; auto. exists h', bs, rv, i. auto.
Qed.

Lemma sample_targets_spec M m data labels acc hs batch pop t r :
  sample_targets M m data labels acc hs batch pop t = Ok r -> by_feature acc -> length labels = length data ->
  exists idcs ps X Y,
    draw_rows (length data) batch pop t = Ok (idcs, ps, sr_pop r, sr_gen r) /\
    (forall i, In i idcs -> i < length data) /\
    take_idx data idcs = Ok X /\ take_idx labels idcs = Ok Y /\ combine X Y = rows_at data labels idcs /\
    sr_q r = length (f2bin acc) * length idcs /\
    length (sr_hists r) = length hs /\
    (forall f, ~ In f (map fst acc) -> nth_error (sr_hists r) f = nth_error hs f) /\
    (forall f, In f (map fst acc) -> exists h h', nth_error hs f = Some h /\ hist_add h X Y = Ok h' /\ nth_error (sr_hists r) f = Some h') /\
    exists irs vs, sr_ir r = map Fin irs /\ sr_cb r = map (xsqrt M) vs /\ length irs = length acc /\ length vs = length acc /\
      forall i f b, nth_error acc i = Some (f, b) ->
        exists ir v, nth_error irs i = Some ir /\ nth_error vs i = Some v /\ scored M m ps (sr_hists r) f b ir v.
Proof.
  intros H BF LL. unfold sample_targets in H.
  apply rbind_ok in H. destruct H as [[[[idcs ps] pop'] t'] [ED H]]. cbv beta iota in H.
  apply rbind_ok in H. destruct H as [X [EX H]]. apply rbind_ok in H. destruct H as [Y [EY H]].
  apply rbind_ok in H. destruct H as [st [ES H]]. injection H as <-. cbn [sr_pop sr_gen sr_q sr_hists sr_ir sr_cb].
  destruct (f2bin_spec acc BF) as [FL [NDK _]].
  destruct (st_fold2 _ _ _ _ _ _ _ _ ES NDK) as [A1 [A2 [A3 [A4 [irs [vs [A5 [A6 [A7 [A8 A9]]]]]]]]]].
  cbn [st_hists st_ir st_cb st_q app] in *. rewrite FL in *.
  destruct (take_idx_nth data [] idcs X EX) as [HX IX]. destruct (take_idx_nth labels 0%Qc idcs Y EY) as [HY _].
  exists idcs, ps, X, Y. split; auto. split; auto. split; auto. split; auto. split.
  { rewrite HX, HY. now apply combine_nth_rows. }
  split. { rewrite A4, HX, map_length. lia. }
  split; auto. split. { intros f N. apply A2. intro. apply N. now apply (f2bin_keys acc f BF). }
  split. { intros f I. apply A3. now apply (f2bin_keys acc f BF). }
  exists irs, vs. auto.
Qed.

Lemma f2bin_count acc F : by_feature acc -> (forall f b, In (f, b) acc -> f < F) ->
  length (f2bin acc) <= F /\ length (f2bin acc) <= length acc /\ (acc <> [] -> 1 <= length (f2bin acc)).
Proof.
  intros BF H. destruct (f2bin_spec acc BF) as [FL [NDK NE]]. split; [|split].
  - rewrite <- (map_length fst), <- (seq_length F 0). apply NoDup_incl_length; auto.
    intros f I. apply (f2bin_keys acc f BF) in I. apply in_map_iff in I. destruct I as [[f' b] [<- I]]. apply in_seq. cbn.
    apply H in I. lia.
  - rewrite <- FL at 2. clear - NE. unfold flatten. induction (f2bin acc) as [|[f bs] g IH]; cbn; auto.
    rewrite app_length, map_length. assert (bs <> []) by (apply (NE (f, bs)); now left).
    assert (length g <= length (concat (map (fun fb => map (fun b => (fst fb, b)) (snd fb)) g))) by (apply IH; intros; apply NE; now right).
    destruct bs; [contradiction|cbn; lia].
  - intros N. destruct (f2bin acc) eqn:E; [|cbn; lia]. rewrite <- FL in N. now destruct N.
Qed.

(** Fitting never runs out of fuel: the model's loops end for every input. *)
From Coq Require Import List Arith Bool ZArith QArith Qcanon Lia Permutation.
From Verif Require Import Base Num Rng Histogram Utils Criteria Solvers Tree Spec SolverSpec TreeSpec NumFacts ListFacts HistFacts HistAdd CritFacts ReductionFacts MakeHist SampleFacts HistProps HistProps2 ExactFacts ExactTotal DrawFacts MabFacts MabLoop TreeFacts CountFacts TreeThms.
Import ListNotations.
Local Open Scope nat_scope.

Definition nf {A} (r : res A) : Prop := r <> Err OutOfFuel.

Lemma nf_bind {A B} (m : res A) (k : A -> res B) : nf m -> (forall a, m = Ok a -> nf (k a)) -> nf (rbind m k).
Proof. unfold nf. destruct m; cbn; intros H1 H2; [now apply H2|]. congruence. Qed.
Lemma nf_ok {A} (a : A) : nf (Ok a). Proof. discriminate. Qed.
Lemma nf_guard b e : e <> OutOfFuel -> nf (guard b e).
Proof. unfold nf, guard. destruct b; congruence. Qed.
Lemma nf_opt {A} (o : option A) e : e <> OutOfFuel -> nf (opt_res o e).
Proof. unfold nf, opt_res. destruct o; congruence. Qed.
Lemma nf_nth {A} (l : list A) i : nf (nth_res l i).
Proof. unfold nf, nth_res. destruct (nth_error l i); discriminate. Qed.
Lemma nf_mapM {A B} (f : A -> res B) l : (forall a, In a l -> nf (f a)) -> nf (mapM f l).
Proof.
  induction l as [|a l IH]; intros H; cbn [mapM]; [apply nf_ok|]. apply nf_bind; [apply H; now left|]. intros b _.
  apply nf_bind; [apply IH; intros; apply H; now right|]. intros; apply nf_ok.
Qed.
Lemma nf_foldM {A S} (f : S -> A -> res S) l : (forall s a, nf (f s a)) -> forall s, nf (foldM f s l).
Proof. intros H. induction l as [|a l IH]; intros s; cbn [foldM]; [apply nf_ok|]. apply nf_bind; auto. Qed.

Ltac nf0 := repeat (match goal with
  | |- nf (Ok _) => apply nf_ok
  | |- nf (Err _) => discriminate
  | |- nf (rbind _ _) => apply nf_bind; [|intros]
  | |- nf (guard _ _) => apply nf_guard; discriminate
  | |- nf (opt_res _ _) => apply nf_opt; discriminate
  | |- nf (nth_res _ _) => apply nf_nth
  | |- nf (mapM _ _) => apply nf_mapM; intros
  | |- nf (foldM _ _ _) => apply nf_foldM; intros
  | |- nf (match ?x with _ => _ end) => destruct x
  | |- nf (let '(_, _) := ?x in _) => destruct x
  end; cbv zeta).

Lemma nf_col D f : nf (col D f). Proof. unfold col. nf0. Qed.
Lemma nf_take {A} (l : list A) I : nf (take_idx l I). Proof. unfold take_idx. nf0. Qed.
Lemma nf_min l : nf (list_min l). Proof. unfold list_min. nf0. Qed.
Lemma nf_max l : nf (list_max l). Proof. unfold list_max. nf0. Qed.
Lemma nf_dd d f : nf (dd_get d f). Proof. unfold dd_get. nf0. Qed.
Lemma nf_new_hist ic f uf fd cl nb mn mx ty t : nf (new_hist ic f uf fd cl nb mn mx ty t).
Proof. unfold new_hist, discrete_bin. nf0. Qed.
Lemma nf_mh_step ic D cl mm dd bt B s f : nf (mh_step ic D cl mm dd bt B s f).
Proof.
  unfold mh_step. apply nf_bind; [apply nf_col|]. intros fd _. apply nf_bind.
  { destruct dd; nf0. apply nf_dd. }
  intros [Dd uf] _. cbv zeta. apply nf_bind.
  { match goal with |- nf (match ?x with _ => _ end) => destruct x end; nf0; auto using nf_min, nf_max. }
  intros [[nb mn] mx] _. apply nf_bind; [apply nf_new_hist|]. intros [h np] _. nf0.
Qed.
Lemma nf_mh ic D Y mm dd bt B np : nf (make_histograms ic D Y mm dd bt B np).
Proof. unfold make_histograms. nf0. apply nf_mh_step. Qed.
Lemma nf_hist_add h X Y : nf (hist_add h X Y).
Proof. unfold hist_add. nf0. apply nf_col. Qed.
Lemma nf_gini cs p n : nf (get_gini cs p n). Proof. unfold get_gini. nf0. Qed.
Lemma nf_entropy M cs p n : nf (get_entropy M cs p n). Proof. unfold get_entropy. nf0. Qed.
Lemma nf_mse a p : nf (get_mse a p). Proof. unfold get_mse. nf0. Qed.
Lemma nf_class_imp M m cs p n : nf (class_impurity M m cs p n).
Proof. unfold class_impurity. destruct m; nf0; auto using nf_gini, nf_entropy. Qed.
Lemma nf_regr_imp m a p : nf (regr_impurity m a p).
Proof. unfold regr_impurity. destruct m; nf0; auto using nf_mse. Qed.
Lemma nf_reductions M m h bins p : nf (get_impurity_reductions M m h bins p).
Proof.
  unfold get_impurity_reductions. apply nf_bind; [nf0|]. intros _ _. destruct (h_class h); nf0; auto using nf_class_imp, nf_regr_imp.
Qed.
Lemma nf_choice_norepl pool k t : nf (choice_norepl pool k t). Proof. unfold choice_norepl. nf0. Qed.
Lemma nf_choice_repl pool k t : nf (choice_repl pool k t).
Proof. unfold choice_repl. destruct (_ && _); nf0. Qed.
Lemma nf_draw_rows N b p t : nf (draw_rows N b p t).
Proof. unfold draw_rows. nf0; auto using nf_choice_norepl, nf_choice_repl, nf_take. Qed.
Lemma nf_targets M m D Y arms hs b p t : nf (sample_targets M m D Y arms hs b p t).
Proof.
  unfold sample_targets. apply nf_bind; [apply nf_draw_rows|]. intros [[[I ps] p'] t'] _.
  apply nf_bind; [apply nf_take|]. intros X _. apply nf_bind; [apply nf_take|]. intros Yb _.
  apply nf_bind; [apply nf_foldM; intros s fb; unfold st_step; nf0; auto using nf_hist_add, nf_reductions|]. intros. apply nf_ok.
Qed.
Lemma nf_assign F B m acc v : nf (assign F B m acc v). Proof. unfold assign. nf0. Qed.
Lemma nf_accesses c : nf (accesses c). Proof. unfold accesses. nf0. Qed.
Lemma nf_best F B e : nf (best_cells F B e). Proof. unfold best_cells, xnanmin_list. nf0. Qed.
Lemma nf_finish hs e m c q : nf (finish hs e m c q). Proof. unfold finish. nf0. Qed.
Lemma nf_xmin l : nf (xmin_list l). Proof. unfold xmin_list. nf0. Qed.
Lemma nf_argmin l : nf (argmin l). Proof. unfold argmin. nf0. Qed.
Lemma nf_choice_one {A} (l : list A) t : nf (choice_one l t). Proof. unfold choice_one. nf0. Qed.
Lemma nf_empty hs a : nf (empty_histograms hs a). Proof. unfold empty_histograms, empty_samples. nf0. Qed.

Lemma exact_nf M c D Y mir e : nf (solve_exactly M c D Y mir e).
Proof.
  unfold solve_exactly. destruct (alloc e) as [j e']. cbv zeta.
  apply nf_bind; [apply nf_nth|]. intros r0 _. apply nf_bind; [apply nf_mh|]. intros mh _. apply nf_bind; [nf0|]. intros _ _.
  apply nf_bind; [apply nf_accesses|]. intros acc _. apply nf_bind; [apply nf_targets|]. intros s _. apply nf_bind; [apply nf_assign|]. intros est _.
  apply nf_bind; [apply nf_best|]. intros best _. nf0. apply nf_finish.
Qed.

(** ** The bandit loop, for any input *)
Lemma bump_mono acc d : forall ns f b,
  ns f b <= fold_left (fun m c => upd m c (m (fst c) (snd c) + d)) acc ns f b /\
  (In (f, b) acc -> ns f b + d <= fold_left (fun m c => upd m c (m (fst c) (snd c) + d)) acc ns f b).
Proof.
  induction acc as [|[f0 b0] acc IH]; intros ns f b; cbn [fold_left]; [split; auto; contradiction|].
  destruct (IH (upd ns (f0, b0) (ns (fst (f0, b0)) (snd (f0, b0)) + d)) f b) as [H1 H2]. cbn [fst snd] in *.
  assert (G : upd ns (f0, b0) (ns f0 b0 + d) f b >= ns f b /\ ((f0, b0) = (f, b) -> upd ns (f0, b0) (ns f0 b0 + d) f b = ns f b + d)).
  { unfold upd. cbn [fst snd]. destruct ((f =? f0) && (b =? b0)) eqn:E.
    - apply andb_true_iff in E. destruct E as [E1 E2]. apply Nat.eqb_eq in E1, E2. subst. split; [lia|auto].
    - split; auto. intros X. injection X as -> ->. rewrite !Nat.eqb_refl in E. discriminate. }
  destruct G as [G1 G2]. split; [lia|]. intros [X|X]; [specialize (G2 X); lia|specialize (H2 X); lia].
Qed.

Section Loop.
Context (M : math) (k : mcfg) (HB : 1 <= mc_batch k).

Lemma nf_exact s : nf (exact_block M k s).
Proof. unfold exact_block. cbv zeta. nf0; auto using nf_empty, nf_targets, nf_assign, nf_xmin. Qed.
Lemma nf_sample s : nf (sample_block M k s).
Proof. unfold sample_block. cbv zeta. nf0; auto using nf_accesses, nf_targets, nf_assign, nf_xmin, nf_argmin. Qed.
Lemma nf_body s : nf (mab_body M k s).
Proof.
  unfold mab_body. apply nf_bind; [destruct (mc_repl k); [apply nf_exact|apply nf_ok]|]. intros [s1 brk] _. destruct brk; [apply nf_ok|].
  destruct (_ <=? 1); [apply nf_ok|]. destruct (ms_pop s1) as [[|x l]|]; [apply nf_ok| |]; apply nf_sample.
Qed.

(** Without replacement. *)
Lemma sample_pop s s' brk : sample_block M k s = Ok (s', brk) ->
  match ms_pop s with None => ms_pop s' = None | Some P => P <> [] -> exists P', ms_pop s' = Some P' /\ length P' < length P end.
Proof.
  unfold sample_block. intros H. apply rbind_ok in H. destruct H as [acc [_ H]]. apply rbind_ok in H. destruct H as [r [ER H]].
  apply rbind_ok in H. destruct H as [est [_ H]]. apply rbind_ok in H. destruct H as [lcb [_ H]]. apply rbind_ok in H. destruct H as [ucb [_ H]].
  cbv zeta in H. assert (ES : ms_pop s' = sr_pop r).
  { destruct (over_budget _ _); [apply ok_pair_inv in H; destruct H as [<- _]; reflexivity|]. apply rbind_ok in H. destruct H as [lm [_ H]].
    destruct (xlt _ _); [apply ok_pair_inv in H; destruct H as [<- _]; reflexivity|]. apply rbind_ok in H. destruct H as [ai [_ H]].
    apply rbind_ok in H. destruct H as [um [_ H]]. apply ok_pair_inv in H. destruct H as [<- _]. reflexivity. }
  rewrite ES. clear H ES. unfold sample_targets in ER. apply rbind_ok in ER. destruct ER as [[[[I ps] p'] t'] [ED ER]].
  apply rbind_ok in ER. destruct ER as [X [_ ER]]. apply rbind_ok in ER. destruct ER as [Y [_ ER]]. apply rbind_ok in ER. destruct ER as [st [_ ER]].
  injection ER as <-. cbn [sr_pop]. destruct (ms_pop s) as [P|].
  - intros NE. apply draw_rows_some in ED. destruct ED as [_ [rest [-> [PM LI]]]]. exists rest. split; auto.
    apply Permutation_length in PM. rewrite app_length in PM. assert (0 < length P) by (destruct P; [contradiction|cbn; lia]). lia.
  - apply draw_rows_none in ED. apply ED.
Qed.

Lemma loop_norepl fuel : forall s P, mc_repl k = false -> ms_pop s = Some P -> length P < fuel -> nf (mab_loop M k fuel s).
Proof.
  induction fuel as [|fuel IH]; intros s P RF EP LT; [lia|]. cbn [mab_loop]. destruct (5 <? _); [|apply nf_ok].
  apply nf_bind; [apply nf_body|]. intros [s' brk] EB. destruct brk; [apply nf_ok|].
  unfold mab_body in EB. rewrite RF in EB. cbn [rbind] in EB. destruct (_ <=? 1); [discriminate|]. rewrite EP in EB. destruct P as [|p P]; [discriminate|].
  pose proof (sample_pop _ _ _ EB) as SP. rewrite EP in SP. destruct SP as [P' [E' LE]]; [discriminate|]. apply (IH s' P'); auto. lia.
Qed.

(** With replacement. *)
Notation cellsFB := (cells (mc_F k) (mc_B k)).
Definition work (s : mstate) : nat :=
  list_sum (map (fun c => if ms_exact s (fst c) (snd c) then 0 else mc_N k - ms_ns s (fst c) (snd c)) cellsFB).
Definition live (s : mstate) : Prop := forall f b, In (f, b) (ms_cand s) -> ms_exact s f b = false /\ In (f, b) cellsFB.

Lemma sample_work s s' : sample_block M k s = Ok (s', false) -> (forall f b, ms_exact s f b = false -> In (f, b) cellsFB -> ms_ns s f b < mc_N k) ->
  live s' /\ (live s -> work s' < work s) /\ work s' <= work s.
Proof.
  unfold sample_block. intros H NS. apply rbind_ok in H. destruct H as [acc [EA H]]. apply rbind_ok in H. destruct H as [r [_ H]].
  assert (EC : acc = ms_cand s /\ acc <> []).
  { unfold accesses in EA. destruct (ms_cand s); [discriminate|]. injection EA as <-. split; auto; discriminate. }
  destruct EC as [-> NEC]. clear EA.
  apply rbind_ok in H. destruct H as [est [_ H]]. apply rbind_ok in H. destruct H as [lcb [_ H]]. apply rbind_ok in H. destruct H as [ucb [_ H]].
  cbv zeta in H. destruct (over_budget _ _); [discriminate|]. apply rbind_ok in H. destruct H as [lm [_ H]].
  destruct (xlt _ _); [discriminate|]. apply rbind_ok in H. destruct H as [ai [_ H]]. apply rbind_ok in H. destruct H as [um [_ H]].
  apply ok_pair_inv in H. destruct H as [<- _]. cbn [ms_cand ms_exact ms_ns].
  assert (LE : forall c, (if ms_exact s (fst c) (snd c) then 0 else mc_N k - fold_left (fun m c => upd m c (m (fst c) (snd c) + mc_batch k)) (ms_cand s) (ms_ns s) (fst c) (snd c))
               <= (if ms_exact s (fst c) (snd c) then 0 else mc_N k - ms_ns s (fst c) (snd c))).
  { intros [f b]. cbn [fst snd]. destruct (ms_exact s f b); auto. destruct (bump_mono (ms_cand s) (mc_batch k) (ms_ns s) f b). lia. }
  split; [|split].
  - intros f b I. cbn [ms_cand ms_exact] in *. apply filter_In in I. destruct I as [I1 I2]. cbn [fst snd] in I2. split; auto.
    rewrite !andb_true_iff, negb_true_iff in I2. tauto.
  - intros LV. unfold work. cbn [ms_exact ms_ns]. destruct (ms_cand s) as [|[f b] cand] eqn:EC; [contradiction|]. rewrite <- EC in *.
    assert (I : In (f, b) (ms_cand s)) by (rewrite EC; now left). destruct (LV f b I) as [L1 L2].
    apply (list_sum_lt _ _ _ (f, b)); auto. cbn [fst snd]. rewrite L1. destruct (bump_mono (ms_cand s) (mc_batch k) (ms_ns s) f b) as [_ G]. specialize (G I).
    specialize (NS f b L1 L2). lia.
  - unfold work. cbn [ms_exact ms_ns]. apply list_sum_le. intros c _. apply LE.
Qed.

Lemma ucin {A} (m : nat -> nat -> A) acc v f b : (In (f, b) acc -> upd_const m acc v f b = v) /\ (~ In (f, b) acc -> upd_const m acc v f b = m f b).
Proof.
  unfold upd_const. revert m. induction acc as [|[f0 b0] acc IH]; intros m; cbn [fold_left]; [split; [contradiction|auto]|].
  destruct (IH (upd m (f0, b0) v)) as [H1 H2]. destruct (in_dec cell_eq_dec (f, b) acc) as [I|I].
  - split; auto. intros X. destruct X. now right.
  - rewrite (H2 I). unfold upd. cbn [fst snd]. split.
    + intros [X|X]; [|contradiction]. injection X as -> ->. now rewrite !Nat.eqb_refl.
    + intros X. destruct ((f =? f0) && (b =? b0)) eqn:E; auto. apply andb_true_iff in E. destruct E as [E1 E2]. apply Nat.eqb_eq in E1, E2. subst. destruct X. now left.
Qed.

Lemma exact_work s s' : exact_block M k s = Ok (s', false) ->
  (forall f b, ms_exact s' f b = false -> In (f, b) cellsFB -> ms_ns s' f b < mc_N k) /\ (live s -> live s') /\ work s' <= work s /\ ms_pop s' = ms_pop s.
Proof.
  unfold exact_block. cbv zeta.
  set (acc := filter _ cellsFB). destruct (length acc =? 0) eqn:EL.
  - intros H. apply ok_pair_inv in H. destruct H as [<- _]. split; auto. apply Nat.eqb_eq, length_zero_iff_nil in EL.
    intros f b EX I. destruct (le_lt_dec (mc_N k) (ms_ns s f b)) as [G|G]; auto. exfalso.
    assert (In (f, b) acc). { unfold acc. apply filter_In. split; auto. cbn [fst snd]. rewrite EX. apply andb_true_iff. split; auto. apply Nat.leb_le. lia. }
    rewrite EL in H. contradiction.
  - intros H. apply rbind_ok in H. destruct H as [hs [_ H]]. apply rbind_ok in H. destruct H as [r [_ H]].
    apply rbind_ok in H. destruct H as [est [_ H]]. apply rbind_ok in H. destruct H as [lcb [_ H]]. apply rbind_ok in H. destruct H as [ucb [_ H]].
    apply rbind_ok in H. destruct H as [um [_ H]]. apply rbind_ok in H. destruct H as [lm [_ H]]. apply ok_pair_inv in H. destruct H as [<- _].
    cbn [ms_exact ms_ns ms_pop ms_cand]. split; [|split; [|split]]; auto.
    + intros f b EX I. destruct (ucin (ms_exact s) acc true f b) as [U1 U2]. destruct (in_dec cell_eq_dec (f, b) acc) as [J|J]; [rewrite U1 in EX by auto; discriminate|].
      rewrite (U2 J) in EX. destruct (le_lt_dec (mc_N k) (ms_ns s f b + mc_batch k)) as [G|G].
      * exfalso. apply J. unfold acc. apply filter_In. split; auto. cbn [fst snd]. rewrite EX. apply andb_true_iff. split; auto. now apply Nat.leb_le.
      * assert (ID : forall (l : list (nat * nat)) d ns, ~ In (f, b) l -> fold_left (fun m c => upd m c (m (fst c) (snd c) + d)) l ns f b = ns f b).
        { clear. induction l as [|[f0 b0] l IH]; intros d ns NI; cbn [fold_left]; auto. rewrite IH by (intros X; apply NI; now right). unfold upd. cbn [fst snd].
          destruct ((f =? f0) && (b =? b0)) eqn:E; auto. apply andb_true_iff in E. destruct E as [E1 E2]. apply Nat.eqb_eq in E1, E2. subst. destruct NI. now left. }
        rewrite ID by auto. lia.
    + intros _ f b I. cbn [ms_cand ms_exact] in *. apply filter_In in I. destruct I as [I1 I2]. cbn [fst snd] in I2. split; auto.
      rewrite andb_true_iff, negb_true_iff in I2. tauto.
    + unfold work. cbn [ms_exact ms_ns]. apply list_sum_le. intros [f b] _. cbn [fst snd].
      destruct (ucin (ms_exact s) acc true f b) as [U1 U2]. destruct (in_dec cell_eq_dec (f, b) acc) as [J|J]; [rewrite U1 by auto; lia|]. rewrite (U2 J).
      destruct (ms_exact s f b); auto. destruct (bump_mono acc (mc_N k) (ms_ns s) f b). lia.
Qed.

Lemma body_work s s' : mc_repl k = true -> ms_pop s = None -> mab_body M k s = Ok (s', false) ->
  live s' /\ ms_pop s' = None /\ work s' <= work s /\ (live s -> work s' < work s).
Proof.
  intros RT EP H. unfold mab_body in H. rewrite RT in H. apply rbind_ok in H. destruct H as [[s1 brk] [EX H]]. destruct brk; [discriminate|].
  destruct (exact_work _ _ EX) as [X1 [X2 [X3 X4]]]. destruct (_ <=? 1); [discriminate|]. rewrite X4, EP in H.
  destruct (sample_work _ _ H X1) as [S1 [S2 S3]]. pose proof (sample_pop _ _ _ H) as SP. rewrite X4, EP in SP. split; auto. split; auto. split; [lia|]. intros LV. specialize (S2 (X2 LV)). lia.
Qed.

Lemma loop_repl_live fuel : forall s, mc_repl k = true -> ms_pop s = None -> live s -> work s < fuel -> nf (mab_loop M k fuel s).
Proof.
  induction fuel as [|fuel IH]; intros s RT EP LV LT; [lia|]. cbn [mab_loop]. destruct (5 <? _); [|apply nf_ok].
  apply nf_bind; [apply nf_body|]. intros [s' brk] EB. destruct brk; [apply nf_ok|]. destruct (body_work _ _ RT EP EB) as [B1 [B2 [B3 B4]]].
  apply IH; auto. specialize (B4 LV). lia.
Qed.
Lemma loop_repl fuel s : mc_repl k = true -> ms_pop s = None -> work s < fuel -> nf (mab_loop M k (S fuel) s).
Proof.
  intros RT EP LT. cbn [mab_loop]. destruct (5 <? _); [|apply nf_ok].
  apply nf_bind; [apply nf_body|]. intros [s' brk] EB. destruct brk; [apply nf_ok|]. destruct (body_work _ _ RT EP EB) as [B1 [B2 [B3 _]]].
  apply loop_repl_live; auto. lia.
Qed.
End Loop.

Lemma mab_nf M c eps repl budget batch D Y mir e : 1 <= batch -> nf (solve_mab M c eps repl budget batch D Y mir e).
Proof.
  intros HB. unfold solve_mab. destruct (alloc e) as [j e']. cbv zeta. apply nf_bind; [apply nf_nth|]. intros r0 _.
  assert (G : nf (do mh <- make_histograms (s_class c) D Y (s_minmax c) (s_dd c) (s_bin c) (s_nb c) (e_np e');
      do _ <- guard (in_range (length r0) (s_nb c) (mh_not mh)) IndexError;
      do s <- mab_loop M {| mc_F := length r0; mc_B := s_nb c; mc_N := length D; mc_measure := s_measure c; mc_data := D;
              mc_labels := Y; mc_eps := eps; mc_repl := repl; mc_budget := budget; mc_batch := batch; mc_mir := mir |} (mab_fuel (length r0) (s_nb c) (length D))
              {| ms_cand := if negb (length (mh_not mh) =? 0) then mh_cons mh else cells (length r0) (s_nb c);
               ms_est := upd_const (j_est j) (mh_not mh) PInf; ms_lcb := upd_const (j_lcb j) (mh_not mh) NInf; ms_ucb := upd_const (j_ucb j) (mh_not mh) PInf;
               ms_ns := fun _ _ => 0; ms_exact := upd_const (fun _ _ => false) (mh_not mh) true;
               ms_hists := mh_hists mh; ms_pop := if repl then None else Some (arange (length D)); ms_q := 0; ms_gen := e_gen (set_np e' (mh_np mh)) |};
      do best <- best_cells (length r0) (s_nb c) (ms_est s);
      do bp <- choice_one best (e_py (set_gen (set_np e' (mh_np mh)) (ms_gen s)));
      do r <- finish (ms_hists s) (ms_est s) mir (fst bp) (ms_q s);
      Ok (r, set_py (set_gen (set_np e' (mh_np mh)) (ms_gen s)) (snd bp)))).
  { apply nf_bind; [apply nf_mh|]. intros mh _. apply nf_bind; [nf0|]. intros _ _. apply nf_bind.
    - destruct repl.
      + unfold mab_fuel. replace (length r0 * s_nb c * length D + length D + 2) with (S (length r0 * s_nb c * length D + length D + 1)) by lia.
        apply loop_repl; auto. unfold work. cbn [mc_F mc_B mc_N ms_exact ms_ns].
        match goal with |- list_sum (map ?g ?l) < _ => assert (LB : list_sum (map g l) <= length l * length D) end.
        { apply list_sum_bound. intros x _. destruct (upd_const _ _ _ _ _); lia. }
        rewrite cells_length in LB. lia.
      + match goal with |- nf (mab_loop M ?k _ ?s) => apply (loop_norepl M k HB _ s (arange (length D))); auto end. rewrite arange_length. unfold mab_fuel. lia.
    - intros s _. apply nf_bind; [apply nf_best|]. intros best _. apply nf_bind; [apply nf_choice_one|]. intros bp _. apply nf_bind; [apply nf_finish|]. intros. apply nf_ok. }
  destruct (s_bin c); try exact G. discriminate.
Qed.

(** ** Trees *)
Section Tree.
Context (M : math) (c : tcfg) (HB : tc_solver c = MAB -> 1 <= tc_batch c).

Lemma node_solve_nf nd b e : nf (node_solve M c nd b e).
Proof.
  unfold node_solve. cbv zeta. apply nf_bind; [nf0|]. intros D _. apply nf_bind; [nf0|]. intros Y _.
  destruct (tc_solver c); [| |discriminate]; apply nf_bind; auto using mab_nf, exact_nf, nf_ok.
Qed.
Lemma best_nf nd b e : nf (calculate_best_split M c nd b e).
Proof. unfold calculate_best_split. destruct (nd_computed nd); [apply nf_ok|]. apply nf_bind; [apply node_solve_nf|]. intros [[s bins] e'] _. nf0. Qed.
Lemma nf_subset D I fs : nf (get_subset_2d D I fs). Proof. unfold get_subset_2d. nf0. Qed.
Lemma nf_counts d l : nf (counts_of_labels d l). Proof. unfold counts_of_labels. nf0. Qed.
Lemma nf_features fs o t : nf (choose_features fs o t).
Proof. unfold choose_features. cbv zeta. nf0; auto using nf_choice_norepl. Qed.
Lemma nf_node_new t p I d pr bins e : nf (node_new c t p I d pr bins e).
Proof.
  unfold node_new. apply nf_bind; [apply nf_features|]. intros [fs g] _. cbv zeta. unfold remap_discrete_features, reindex_minmax.
  nf0; auto using nf_subset, nf_take, nf_counts, nf_dd.
Qed.
Lemma nf_constraints nd : nf (check_constraints c nd). Proof. unfold check_constraints. nf0. Qed.
Lemma nf_split t id e : nf (node_split M c t id e).
Proof.
  unfold node_split. apply nf_bind; [nf0|]. intros nd0 _. apply nf_bind; [nf0|]. intros _ _. apply nf_bind.
  { nf0. apply best_nf. }
  intros [nd e1] _. destruct (nd_red nd); [|apply nf_ok]. unfold create_child. nf0; auto using nf_node_new, nf_col.
Qed.
Lemma nf_splittable t nd e : nf (check_splittable M c t nd e).
Proof.
  unfold check_splittable. apply nf_bind; [apply nf_constraints|]. intros ok _. destruct ok; cbn [negb]; [|apply nf_ok].
  apply nf_bind; [apply best_nf|]. intros [[n1 o1] e1] _. destruct o1; [|apply nf_ok]. apply nf_bind; [apply best_nf|]. intros [[n2 o2] e2] _. nf0.
Qed.
Lemma nf_scan s pl : nf (scan_leaf M c s pl).
Proof.
  unfold scan_leaf. destruct (sc_stop s); [apply nf_ok|]. destruct pl as [pos id]. cbv zeta. apply nf_bind; [nf0|]. intros nd _.
  apply nf_bind; [apply nf_constraints|]. intros ok _. destruct ok; cbn [negb]; [|apply nf_ok].
  match goal with |- nf (if ?b then _ else _) => destruct b end; [apply nf_ok|].
  apply nf_bind; [apply best_nf|]. intros [[n1 o1] e1] _. apply nf_bind.
  - destruct (nd_splittable n1); [apply nf_ok|]. apply nf_bind; [apply nf_splittable|]. intros [[b n2] e2] _. apply nf_ok.
  - intros [[sp n3] e3] _. apply nf_ok.
Qed.
Lemma nf_depth t : nf (get_depth t). Proof. unfold get_depth. nf0. Qed.
Lemma nf_step t e : nf (fit_step M c t e).
Proof.
  unfold fit_step. apply nf_bind; [apply nf_foldM; apply nf_scan|]. intros s _. cbv zeta. apply nf_bind.
  - destruct (sc_best s) as [[[pos id] x]|]; [|apply nf_ok]. destruct (xlt x _); [|apply nf_ok].
    apply nf_bind; [apply nf_split|]. intros te _. nf0.
  - intros [[t3 e3] cont] _. apply nf_bind; [apply nf_depth|]. intros. apply nf_ok.
Qed.

Lemma loop_nf D L FS I0 b0 fuel : forall t e, tinv M c D L FS I0 b0 t -> length I0 < fuel + t_splits t + 1 -> 
  (forall t', tinv M c D L FS I0 b0 t' -> length (t_leaves t') <= length I0) -> nf (fit_loop M c fuel t e).
Proof.
  induction fuel as [|fuel IH]; intros t e T LT LL; cbn [fit_loop]; apply nf_bind.
  1,3 : nf0.
  - intros stop _. destruct stop; [apply nf_ok|]. exfalso. specialize (LL t T). destruct (ti_splits _ _ _ _ _ _ _ _ T). lia.
  - intros stop _. destruct stop; [apply nf_ok|]. apply nf_bind; [apply nf_step|]. intros [[t' e'] cont] ES. destruct cont; [|apply nf_ok].
    destruct (fit_step_tinv _ _ _ _ _ _ _ _ _ _ _ _ T ES) as [T' [_ [C1 _]]]. apply IH; auto. rewrite C1 by auto. lia.
Qed.

Lemma built_terminates P a e t0 e0 : tree_new P c a e = Ok (t0, e0) -> tree_fit M c t0 (None, None) e0 <> Err OutOfFuel.
Proof.
  intros HN. change (nf (tree_fit M c t0 (None, None) e0)). unfold tree_fit. cbn [rbind].
  apply nf_bind.
  { match goal with |- nf (if ?b then _ else _) => destruct b end; [|apply nf_ok]. apply nf_bind; [|intros; apply nf_ok].
    unfold data_to_discrete. nf0. apply nf_col. }
  intros t1 E1. destruct (tc_splitter c); try discriminate.
  assert (ST : exists d, set_leaves t1 (t_leaves t1 ++ [0]) = start_tree t0 d).
  { match type of E1 with (if ?b then _ else _) = _ => destruct b end.
    - apply rbind_ok in E1. destruct E1 as [d [_ E1]]. injection E1 as <-. exists (Some d). reflexivity.
    - injection E1 as <-. exists (t_dd t0). reflexivity. }
  destruct ST as [d ST]. rewrite ST. clear E1 ST.
  destruct (new_spec _ _ _ _ _ _ HN) as (nd & e1 & EN & ET & _).
  assert (LR : leaf_rows (start_tree t0 d) = length (train_rows a)).
  { rewrite ET. unfold leaf_rows. cbn. unfold node_new in EN.
    apply rbind_ok in EN. destruct EN as [[fs g] [_ EN]]. apply rbind_ok in EN. destruct EN as [_ [_ EN]]. apply rbind_ok in EN. destruct EN as [dd [_ EN]].
    apply rbind_ok in EN. destruct EN as [ll [EL EN]]. apply rbind_ok in EN. destruct EN as [mm [_ EN]]. apply rbind_ok in EN. destruct EN as [cs [_ EN]].
    apply ok_pair_inv in EN. destruct EN as [<- _]. cbn. apply take_idx_len in EL. lia. }
  rewrite LR. destruct (list_eq_dec Nat.eq_dec (train_rows a) []) as [EZ|NE].
  - (* no rows: the root is not splittable *)
    rewrite EZ. cbn [length]. cbn [fit_loop]. apply nf_bind; [nf0|]. intros stop _. destruct stop; [apply nf_ok|].
    apply nf_bind; [apply nf_step|]. intros [[t' e'] cont] ES. destruct cont; [|apply nf_ok]. exfalso.
    assert (LB : exists l, nd_labels nd = Some l /\ l = [] /\ nd_n nd = 0).
    { unfold node_new in EN.
      apply rbind_ok in EN. destruct EN as [[fs g] [_ EN]]. apply rbind_ok in EN. destruct EN as [_ [_ EN]]. apply rbind_ok in EN. destruct EN as [dd [_ EN]].
      apply rbind_ok in EN. destruct EN as [ll [EL EN]]. apply rbind_ok in EN. destruct EN as [mm [_ EN]]. apply rbind_ok in EN. destruct EN as [cs [_ EN]].
      apply ok_pair_inv in EN. destruct EN as [<- _]. apply take_idx_len in EL. rewrite EZ in EL. cbn in EL. destruct ll; [|discriminate]. exists []. auto. }
    destruct LB as [ll [L1 [-> L3]]].
    unfold fit_step in ES. rewrite ET in ES. cbn [start_tree t_leaves app length seq combine foldM] in ES. apply rbind_ok in ES. destruct ES as [s [E1 ES]].
    apply rbind_ok in E1. destruct E1 as [s1 [E1 E2]]. injection E2 as <-. unfold scan_leaf in E1. cbn [sc_stop sc_tree start_tree t_nodes nth_res nth_error rbind] in E1.
    apply rbind_ok in E1. destruct E1 as [ok [E1 E3]]. unfold check_constraints in E1. apply rbind_ok in E1. destruct E1 as [deep [_ E1]].
    assert (ok = false).
    { destruct deep; cbn [negb] in E1; [|now injection E1]. rewrite L3 in E1. destruct (tc_min_split c <? 0) eqn:Z; cbn [negb] in E1; [|now injection E1].
      rewrite L1 in E1. cbn in E1. now injection E1. }
    subst ok. cbn [negb] in E3. injection E3 as <-. cbn [sc_best rbind] in ES. apply rbind_ok in ES. destruct ES as [dpt [_ ES]]. discriminate.
  - destruct (start_inv M P c a e t0 e0 d HN NE) as [T S0].
    apply loop_nf with (D := ta_data a) (L := ta_labels a) (FS := train_feats a) (I0 := train_rows a) (b0 := ta_budget a); auto.
    + rewrite S0. lia.
    + intros t' T'. eapply leaves_le_rows; eauto.
Qed.
End Tree.

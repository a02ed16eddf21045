(** Growing a forest on data in other units. *)
From Coq Require Import List Arith Bool ZArith QArith Qcanon Lia Permutation.
From Verif Require Import Base Num Rng Histogram Utils Criteria Solvers Tree Forest Spec SolverSpec TreeSpec InvarSpec ForestSpec FInvarSpec NumFacts ListFacts HistFacts SampleFacts CountFacts TreeFacts TreeThms TreeTotal Repro MoveFacts TreeSim NpStill ForestFacts ForestMore ForestTotal ForestRepro.
Import ListNotations.
Local Open Scope nat_scope.

(** ** Trees with caches *)
Section Cache.
Context (P : prng) (M : math) (c : tcfg) (a : targs) (e : env) (t : tree) (HB : built P M c a e t) (NE : train_rows a <> []).
Lemma batch_from xs : forall t' ps, cached_tree c t t' -> mapM (fresh_answer c t) xs = Ok ps -> exists t'', tree_predict_batch c t' xs = Ok (ps, t'') /\ cached_tree c t t''.
Proof.
  induction xs as [|x xs IH]; intros t' ps C H; cbn [mapM] in H; cbn [tree_predict_batch].
  - injection H as <-. eauto.
  - apply rbind_ok in H. destruct H as [p [E1 H]]. apply rbind_ok in H. destruct H as [ps' [E2 H]]. injection H as <-.
    pose proof (predict_cached c t t' x C) as PC. destruct (tree_predict c t' x) as [[p' t1]|]; [|congruence]. destruct PC as [P1 P2]. cbn [rbind fst snd].
    destruct (IH t1 ps' P2 E2) as (t2 & E3 & C2). rewrite E3. cbn [rbind fst snd]. assert (p' = p) by congruence. subst p'. eauto.
Qed.
End Cache.
Lemma same_cached u s c c' t t' t1 t1' : same_tree u s t t' -> cached_tree c t t1 -> cached_tree c' t' t1' -> same_tree u s t1 t1'.
Proof.
  intros [F ? ? ? ? ?] [E1 C1] [E2 C2]. rewrite E1, E2. constructor; cbn [set_nodes t_leaves t_queries t_splits t_depth t_budget t_nodes]; auto.
  clear - F C1 C2. revert t1' t1 C1 C2. 
  assert (G : forall l l', Forall2 (same_node u s) l l' -> forall k k', Forall2 (cached c) l k -> Forall2 (cached c') l' k' -> Forall2 (same_node u s) k k').
  { clear. intros l l' F. induction F as [|nd nd' l l' N F IH]; intros k k' A B; inversion A; inversion B; subst; constructor; auto. 
    match goal with H1 : cached c nd ?x, H2 : cached c' nd' ?y |- same_node u s ?x ?y => rewrite (ca_frame _ _ _ H1), (ca_frame _ _ _ H2) end. destruct N. constructor; cbn; auto. }
  intros t1' t1 C1 C2. eapply G; eauto.
Qed.

(** ** Lists *)
Lemma nth_res_map {A B} (f : A -> B) l i a : nth_res l i = Ok a -> nth_res (map f l) i = Ok (f a).
Proof. rewrite !nth_res_ok, nth_error_map. intros ->. reflexivity. Qed.
Lemma take_idx_map {A B} (f : A -> B) l idcs r : take_idx l idcs = Ok r -> take_idx (map f l) idcs = Ok (map f r).
Proof.
  unfold take_idx. revert r. induction idcs as [|i idcs IH]; intros r H; cbn [mapM] in *; [injection H as <-; reflexivity|].
  apply rbind_ok in H. destruct H as [x [E H]]. apply rbind_ok in H. destruct H as [xs [E2 H]]. injection H as <-. rewrite (nth_res_map f _ _ _ E). cbn [rbind]. rewrite (IH _ E2). reflexivity.
Qed.
Lemma set_nth_map {A B} (f : A -> B) i a l : set_nth i (f a) (map f l) = map f (set_nth i a l).
Proof. revert i. induction l as [|x l IH]; intros [|i]; cbn; auto. now rewrite IH. Qed.
Lemma mapM_move {A B C D} (f : A -> res B) (f' : C -> res D) (k : A -> C) (m : B -> D) l r :
  (forall a b, In a l -> f a = Ok b -> f' (k a) = Ok (m b)) -> mapM f l = Ok r -> mapM f' (map k l) = Ok (map m r).
Proof.
  revert r. induction l as [|a l IH]; intros r H E; cbn [mapM map] in *; [injection E as <-; reflexivity|].
  apply rbind_ok in E. destruct E as [b [E1 E]]. apply rbind_ok in E. destruct E as [bs [E2 E]]. injection E as <-. rewrite (H a b (or_introl eq_refl) E1). cbn [rbind].
  rewrite (IH bs) by (auto; intros; apply H; auto; now right). reflexivity.
Qed.
Lemma combine_maps {A B C D} (f : A -> C) (k : B -> D) l : forall l', combine (map f l) (map k l') = map (fun p => (f (fst p), k (snd p))) (combine l l').
Proof. induction l as [|a l IH]; intros [|b l']; cbn; auto. now rewrite IH. Qed.

(** ** Ranges *)
Lemma min_moved g l : increasing g -> forall a, qmin_list (g a) (map g l) = g (qmin_list a l).
Proof.
  intros I. unfold qmin_list. induction l as [|b l IH]; intros a; cbn [map fold_left]; auto. replace (qmin2 (g a) (g b)) with (g (qmin2 a b)); [apply IH|].
  unfold qmin2. rewrite incr_qle by auto. now destruct (qle a b).
Qed.
Lemma max_moved g l : increasing g -> forall a, qmax_list (g a) (map g l) = g (qmax_list a l).
Proof.
  intros I. unfold qmax_list. induction l as [|b l IH]; intros a; cbn [map fold_left]; auto. replace (qmax2 (g a) (g b)) with (g (qmax2 a b)); [apply IH|].
  unfold qmax2. rewrite incr_qle by auto. now destruct (qle a b).
Qed.
Lemma col_moved u data f r : col data f = Ok r -> col (map (move_row u) data) f = Ok (map (u f) r).
Proof.
  unfold col. apply mapM_move. intros x b _ E. rewrite nth_res_ok in *. now rewrite move_row_nth, E.
Qed.
Lemma ranges_row (q : nat -> res Qc) (q' : nat -> res Qc) u W r : (forall f v, f < W -> q f = Ok v -> q' f = Ok (u f v)) -> mapM q (seq 0 W) = Ok r -> mapM q' (seq 0 W) = Ok (move_row u r).
Proof.
  intros H E. assert (L : length r = W) by (apply mapM_length in E; now rewrite seq_length in E).
  assert (G : forall k n r, (forall f v, k <= f < k + n -> q f = Ok v -> q' f = Ok (u f v)) -> mapM q (seq k n) = Ok r -> mapM q' (seq k n) = Ok (map (fun p => u (fst p) (snd p)) (combine (seq k n) r))).
  { clear. intros k n. revert k. induction n as [|n IH]; intros k r H E; cbn [seq mapM combine map] in *; [injection E as <-; reflexivity|].
    apply rbind_ok in E. destruct E as [b [E1 E]]. apply rbind_ok in E. destruct E as [bs [E2 E]]. injection E as <-. rewrite (H k b ltac:(lia) E1). cbn [rbind]. rewrite (IH (S k) bs); [reflexivity|intros; apply H; auto; lia|auto]. }
  unfold move_row. rewrite L. apply G; auto. intros f v B. apply H. lia.
Qed.
Lemma minmax_moved u data W mn mx : (forall f, f < W -> increasing (u f)) -> col_minmax data W = Ok (mn, mx) -> col_minmax (map (move_row u) data) W = Ok (move_row u mn, move_row u mx).
Proof.
  intros I H. unfold col_minmax in *. apply rbind_ok in H. destruct H as [mn' [E1 H]]. apply rbind_ok in H. destruct H as [mx' [E2 H]]. injection H as -> ->.
  rewrite (ranges_row _ (fun f => do c <- col (map (move_row u) data) f; list_min c) u W mn) with (2 := E1).
  - cbn [rbind]. rewrite (ranges_row _ (fun f => do c <- col (map (move_row u) data) f; list_max c) u W mx) with (2 := E2); [reflexivity|].
    intros f v Hf H. apply rbind_ok in H. destruct H as [r [E H]]. rewrite (col_moved u _ _ _ E). cbn [rbind]. destruct r as [|a r]; [discriminate|]. cbn [list_max map] in *. injection H as <-. now rewrite max_moved by auto.
  - intros f v Hf H. apply rbind_ok in H. destruct H as [r [E H]]. rewrite (col_moved u _ _ _ E). cbn [rbind]. destruct r as [|a r]; [discriminate|]. cbn [list_min map] in *. injection H as <-. now rewrite min_moved by auto.
Qed.

(** ** Label arrays *)
Definition move_larr (g : Qc -> Qc) (la : larr) : larr := {| la_int := la_int la; la_vals := map g (la_vals la) |}.
Lemma heap_read g h r la : nth_res h r = Ok la -> nth_res (move_heap g h) r = Ok (move_larr g la).
Proof. apply (nth_res_map (move_larr g)). Qed.
Lemma astype_moved g h r h1 r1 : (forall la y, nth_error h r = Some la -> In y (la_vals la) -> trunc (g y) = g (trunc y)) -> astype_int h r = Ok (h1, r1) -> astype_int (move_heap g h) r = Ok (move_heap g h1, r1).
Proof.
  intros G H. unfold astype_int in *. apply rbind_ok in H. destruct H as [la [E H]]. injection H as <- <-. rewrite (heap_read g _ _ _ E). cbn [rbind]. unfold move_heap. rewrite map_app, map_length. cbn [map move_larr la_int la_vals].
  assert (Q : map trunc (map g (la_vals la)) = map g (map trunc (la_vals la))) by (rewrite !map_map; apply map_ext_in; intros y; apply G; now apply nth_res_ok). now rewrite Q.
Qed.
Lemma store_moved g h r idcs vals h1 : (forall la v, nth_error h r = Some la -> (if la_int la then trunc (g v) else g v) = g (if la_int la then trunc v else v)) ->
  store h r idcs vals = Ok h1 -> store (move_heap g h) r idcs (map g vals) = Ok (move_heap g h1).
Proof.
  intros G H. unfold store in *. apply rbind_ok in H. destruct H as [la [E H]]. rewrite (heap_read g _ _ _ E). cbn [rbind]. apply nth_res_ok in E. specialize (G la). cbn [move_larr la_vals la_int] in *. rewrite map_length.
  apply rbind_ok in H. destruct H as [[] [E2 H]]. rewrite E2. cbn [rbind]. injection H as <-. f_equal. unfold move_heap. rewrite <- (set_nth_map (fun la => {| la_int := la_int la; la_vals := map g (la_vals la) |})). cbn [la_int la_vals]. f_equal. f_equal.
  generalize (la_vals la) as l. revert vals. clear - G E. induction idcs as [|i idcs IH]; intros vals l; [reflexivity|]. destruct vals as [|v vals]; [reflexivity|]. cbn [map combine fold_left fst snd].
  rewrite G by auto. rewrite set_nth_map. apply IH.
Qed.
Lemma moved_both c a W u g : trainable c a W -> moved_args u g a (relabel_args g (rescale_args u a)).
Proof.
  intros T. constructor; cbn [relabel_args rescale_args ta_data ta_labels ta_budget ta_dd ta_seed]; auto.
  - assert (E : train_rows (relabel_args g (rescale_args u a)) = train_rows a) by (unfold train_rows; cbn [relabel_args rescale_args ta_idcs ta_labels]; now rewrite map_length). rewrite E.
    match goal with |- Permutation ?l ?l' => replace l' with l end; [apply Permutation_refl|]. apply map_ext_in. intros i Hi. f_equal; [rewrite <- (move_row_nil u) at 2; now rewrite map_nth|].
    rewrite (nth_indep (map g (ta_labels a)) 0%Qc (g 0%Qc)) by (rewrite map_length; now apply (tr_rows_in _ _ _ T)). now rewrite map_nth.
  - now rewrite map_length.
  - rewrite !map_length. symmetry. apply T.
  - intros i Hi. rewrite map_length. apply (tr_rows_in _ _ _ T). revert Hi. unfold train_rows. cbn [relabel_args rescale_args ta_idcs ta_labels]. now rewrite map_length.
  - unfold train_feats. cbn [relabel_args rescale_args ta_data ta_feats]. destruct (ta_feats a); auto. f_equal. rewrite <- (move_row_nil u), map_nth, move_row_length. reflexivity.
  - intros _ E. apply (train_nonempty _ _ _ T). destruct (ta_data a); [auto|discriminate].
Qed.

Section FSim.
Context (M : math) (P : prng) (c : fcfg) (u : units) (g : Qc -> Qc) (s : Qc).
Notation c' := (move_fcfg s c).

(** ** Boosting *)
Definition lin : Prop := fc_boosting c = true -> exists k, forall y, g y = (k * y)%Qc.
Definition hint (h : heap) : Prop := fc_boosting c = true -> (forall y, g y = y) \/ forall la, In la h -> la_int la = false.

Lemma boost_sim tc a e t a' e' t' i data rows newr h t2 h2 : fc_boosting c = true -> lin -> hint h -> built P M tc a e t -> built P M (move_cfg u g s tc) a' e' t' -> train_rows a <> [] -> train_rows a' <> [] ->
  (forall x, answer (tree_predict (move_cfg u g s tc) t' (move_row u x)) = move_answer g (answer (tree_predict tc t x))) ->
  boost c i tc t data rows newr h = Ok (t2, h2) ->
  exists t2', boost c' i (move_cfg u g s tc) t' (map (move_row u) data) rows newr (move_heap g h) = Ok (t2', move_heap g h2) /\ cached_tree tc t t2 /\ cached_tree (move_cfg u g s tc) t' t2' /\ hint h2.
Proof.
  intros BO LN HI B B' NE NE' A H. destruct (LN BO) as [k LK]. unfold boost in *. apply rbind_ok in H. destruct H as [xs [E1 H]]. rewrite (take_idx_map (move_row u) _ _ _ E1). cbn [rbind].
  apply rbind_ok in H. destruct H as [[ps t3] [E2 H]]. cbn [fst snd] in H.
  destruct (batch_cached tc t xs t ps t3 (cached_self P M tc a e t B NE) E2) as [C MP].
  assert (MP' : mapM (fresh_answer (move_cfg u g s tc) t') (map (move_row u) xs) = Ok (map (move_pred g) ps)).
  { revert MP. apply mapM_move. intros x p _ Q. rewrite <- (answer_fresh tc t t x (cached_self P M tc a e t B NE)) in Q. specialize (A x). rewrite Q in A. cbn [move_answer] in A. rewrite <- A. symmetry. apply answer_fresh. eapply cached_self; eauto. }
  destruct (batch_from (move_cfg u g s tc) t' (map (move_row u) xs) t' (map (move_pred g) ps) (cached_self _ _ _ _ _ _ B' NE') MP') as (t3' & E2' & C'). rewrite E2'. cbn [rbind fst snd].
  apply rbind_ok in H. destruct H as [vs [E3 H]].
  assert (E3' : preds_reg (map (move_pred g) ps) = Ok (map g vs)).
  { revert E3. unfold preds_reg. apply mapM_move. intros [|v] w _ Q; [discriminate|]. injection Q as <-. reflexivity. }
  rewrite E3'. cbn [rbind]. change (fc_lr c') with (fc_lr c). apply rbind_ok in H. destruct H as [lr [E4 H]]. rewrite E4. cbn [rbind]. cbv zeta in *.
  apply rbind_ok in H. destruct H as [la [E5 H]]. rewrite (heap_read g _ _ _ E5). cbn [rbind]. cbn [move_larr la_vals].
  apply rbind_ok in H. destruct H as [old [E6 H]]. rewrite (take_idx_map g _ _ _ E6). cbn [rbind]. apply rbind_ok in H. destruct H as [ys [E7 H]].
  set (ws := if i =? 0 then vs else map (fun p => (p * lr)%Qc) vs) in *. assert (WS : (if i =? 0 then map g vs else map (fun p => (p * lr)%Qc) (map g vs)) = map g ws).
  { unfold ws. destruct (i =? 0); auto. rewrite !map_map. apply map_ext. intros v. rewrite !LK. ring. }
  rewrite WS. rewrite combine_maps.
  assert (E7' : mapM (fun tp => get_next_target MSELoss false (fst tp) (snd tp)) (map (fun p => (g (fst p), g (snd p))) (combine old ws)) = Ok (map (fun y => Fin (g (nan_to_num y))) ys)).
  { revert E7. apply mapM_move. intros [o w] y _ Q. cbn in *. injection Q as <-. cbn. do 2 f_equal. rewrite !LK. ring. }
  rewrite E7'. cbn [rbind]. apply rbind_ok in H. destruct H as [h3 [E8 H]]. apply ok_pair_inv in H. destruct H as [<- <-].
  assert (ST : store (move_heap g h) newr rows (map g (map nan_to_num ys)) = Ok (move_heap g h3)).
  { apply store_moved; auto. intros la' v Q. destruct (HI BO) as [ID|FL]; [now rewrite !ID|]. rewrite (FL la') by (eapply nth_error_In; eauto). reflexivity. }
  rewrite map_map in ST. rewrite map_map. cbn [nan_to_num]. rewrite ST. cbn [rbind]. exists t3'. split; auto. split; auto. split; auto.
  intros _. destruct (HI BO) as [ID|FL]; [now left|]. right. intros la' I. unfold store in E8. rewrite E5 in E8. cbn [rbind] in E8. apply rbind_ok in E8. destruct E8 as [[] [_ E8]]. injection E8 as <-.
  apply In_nth_error in I. destruct I as [j J]. rewrite set_nth_nth in J. apply nth_res_ok in E5. destruct (j =? newr).
  - rewrite E5 in J. injection J as <-. cbn. apply FL. eapply nth_error_In; eauto.
  - apply FL. eapply nth_error_In; eauto.
Qed.

(** ** One tree *)
Record twin (ct ct' : tcfg * tree) : Prop := {
  tw_cfg : fst ct' = move_cfg u g s (fst ct);
  tw_tree : same_tree u s (snd ct) (snd ct');
  tw_ans : forall x, answer (tree_predict (fst ct') (snd ct') (move_row u x)) = move_answer g (answer (tree_predict (fst ct) (snd ct) x));
  tw_batch : forall xs ps t3, tree_predict_batch (fst ct) (snd ct) xs = Ok (ps, t3) ->
    exists t3', tree_predict_batch (fst ct') (snd ct') (map (move_row u) xs) = Ok (map (move_pred g) ps, t3') /\ same_tree u s t3 t3'
}.
Record fsimr (z z' : fstate) : Prop := {
  fr_f : same_forest u g s (fs_f z) (fs_f z');
  fr_trees : Forall2 twin (f_trees (fs_f z)) (f_trees (fs_f z'));
  fr_h : fs_h z' = move_heap g (fs_h z);
  fr_int : hint (fs_h z);
  fr_stop : fs_stop z' = fs_stop z;
  fr_np : e_np (fs_e z') = e_np (fs_e z)
}.
Lemma twins_same ts ts' : Forall2 twin ts ts' -> Forall2 (fun ct ct' => fst ct' = move_cfg u g s (fst ct) /\ same_tree u s (snd ct) (snd ct')) ts ts'.
Proof. induction 1 as [|ct ct' ts ts' [A B C D] H IH]; constructor; auto. Qed.
Lemma same_upd f f' ts ts' b q o gn : same_forest u g s f f' -> Forall2 twin ts ts' -> same_forest u g s (upd_forest f ts b q o gn) (upd_forest f' ts' b q o gn).
Proof. intros [] F. constructor; cbn; auto. now apply twins_same. Qed.
Lemma cached_twin tc a e t a' e' t' t2 t2' : built P M tc a e t -> built P M (move_cfg u g s tc) a' e' t' -> train_rows a <> [] -> train_rows a' <> [] -> same_tree u s t t' ->
  (forall x, answer (tree_predict (move_cfg u g s tc) t' (move_row u x)) = move_answer g (answer (tree_predict tc t x))) ->
  cached_tree tc t t2 -> cached_tree (move_cfg u g s tc) t' t2' -> twin (tc, t2) (move_cfg u g s tc, t2').
Proof.
  intros B B' NE NE' SM AN Q2 Q3.
  assert (AF : forall x, fresh_answer (move_cfg u g s tc) t' (move_row u x) = move_answer g (fresh_answer tc t x)).
  { intros x. rewrite <- (answer_fresh _ _ _ _ (cached_self _ _ _ _ _ _ B' NE')), <- (answer_fresh _ _ _ x (cached_self _ _ _ _ _ _ B NE)). apply AN. }
  constructor; cbn [fst snd]; auto.
  - eapply same_cached; eauto.
  - intros x. rewrite (answer_fresh _ _ _ _ Q3), (answer_fresh _ _ _ _ Q2). apply AF.
  - intros xs ps t3 H. destruct (batch_cached tc t xs t2 ps t3 Q2 H) as [C MP].
    destruct (batch_from (move_cfg u g s tc) t' (map (move_row u) xs) t2' (map (move_pred g) ps) Q3) as (t3' & E2' & C'); [|exists t3'; split; auto; eapply same_cached; eauto].
    revert MP. apply mapM_move. intros x p _ Q. rewrite AF, Q. reflexivity.
Qed.

Context (data : list (list Qc)) (W : nat) (f0 : forest) (arg : option (list (list Qc)) * option nat) (h0 : heap) (f1 : forest) (h1 : heap) (org new : nat) (L : list Qc).
Context (NP : 1 <= length data) (WP : 1 <= W) (FB : fc_boosting c = true -> fc_class c = false /\ fc_lr c <> None).
Context (DR : qlt (fc_alpha_N c) 1%Qc || qlt (fc_alpha_F c) 1%Qc = true -> (1 <= ztrunc (Nq (length data) * fc_alpha_N c)%Qc <= Z.of_nat (length data))%Z /\ (1 <= ztrunc (Nq W * fc_alpha_F c)%Qc <= Z.of_nat W)%Z).
Context (SU : fit_setup c f0 arg h0 data W 0 f1 h1 org new L).
Context (FG : forest_fixed_grid c) (GC : fc_class c = true -> good_classes (f_classes f1)) (RS : rescaling (fc_bin c) W u) (LN : lin)
  (RL : forall mm, relabelling (tree_cfg c (f_classes f1) mm) g s).
Notation rdy := (ready c data f1 h1 new).

Lemma fit_tree_sim z z' i z1 : fsimr z z' -> rdy z -> fit_tree M P c data W z i = Ok z1 ->
  exists z1', fit_tree M P c' (map (move_row u) data) W z' i = Ok z1' /\ fsimr z1 z1'.
Proof.
  intros S RD H. pose proof S as [F1 F2 F3 F4 F5 F6]. unfold fit_tree in *. rewrite F5. destruct (fs_stop z) eqn:ST; [apply ok_inv in H; subst z1; exists z'; split; auto|].
  rewrite map_length. rewrite (fo_gen _ _ _ _ _ F1), (fo_budget _ _ _ _ _ F1), (fo_org _ _ _ _ _ F1), (fo_new _ _ _ _ _ F1), (fo_oob _ _ _ _ _ F1), (fo_queries _ _ _ _ _ F1), (fo_dd _ _ _ _ _ F1), (fo_classes _ _ _ _ _ F1), (fo_minmax _ _ _ _ _ F1), F3, F6.
  change (subset_draw c' (length data) W (f_gen (fs_f z))) with (subset_draw c (length data) W (f_gen (fs_f z))).
  change (fc_bootstrap c') with (fc_bootstrap c). change (fc_oob c') with (fc_oob c). change (fc_class c') with (fc_class c). change (fc_boosting c') with (fc_boosting c).
  apply rbind_ok in H. destruct H as [[[rows feats] gen1] [E1 H]]. rewrite E1. cbn [rbind].
  destruct (match f_budget (fs_f z) with Some b => (b <=? 0)%Z | None => false end).
  { apply ok_inv in H. subst z1. eexists. split; [reflexivity|]. constructor; cbn [fs_f fs_e fs_h fs_stop]; auto. now apply same_upd. }
  apply rbind_ok in H. destruct H as [orgr [E2 H]]. rewrite E2. cbn [rbind]. apply rbind_ok in H. destruct H as [newr [E3 H]]. rewrite E3. cbn [rbind].
  apply rbind_ok in H. destruct H as [[rows2 gen2] [E4 H]]. rewrite E4. cbn [rbind]. destruct (draw (e_np (fs_e z))) as [seed np'] eqn:ED.
  apply rbind_ok in H. destruct H as [la [E5 H]]. rewrite (heap_read g _ _ _ E5). cbn [rbind]. cbv zeta in *. cbn [move_larr la_vals].
  apply rbind_ok in H. destruct H as [[t e1] [E6 H]]. cbn [fst snd] in H. apply rbind_ok in H. destruct H as [[t1 e2] [E7 H]].
  apply opt_res_ok in E2. apply opt_res_ok in E3.
  pose proof (ready_good c data W 0 f0 arg h0 f1 h1 org new L NP WP FB DR SU z rows feats gen1 rows2 gen2 orgr newr la seed RD E1 E2 E3 E4 E5) as (TC & TR & _).
  set (a := {| ta_data := data; ta_labels := la_vals la; ta_budget := f_budget (fs_f z); ta_dd := f_dd (fs_f z); ta_seed := seed; ta_idcs := Some rows2; ta_feats := Some feats |}) in *.
  set (tc := tree_cfg c (f_classes (fs_f z)) (f_minmax (fs_f z))) in *.
  change {| ta_data := map (move_row u) data; ta_labels := map g (la_vals la); ta_budget := f_budget (fs_f z); ta_dd := f_dd (fs_f z); ta_seed := seed; ta_idcs := Some rows2; ta_feats := Some feats |} with (relabel_args g (rescale_args u a)).
  change (tree_cfg c' (map (fun p => (g (fst p), snd p)) (f_classes (fs_f z))) (option_map (fun q => (move_row u (fst q), move_row u (snd q))) (f_minmax (fs_f z)))) with (move_cfg u g s tc).
  assert (B : built P M tc a (set_np (fs_e z) np') t1) by (exists t, e1, e2; auto).
  assert (CL : f_classes (fs_f z) = f_classes f1) by (destruct RD as ((ts & b & q & o & gg & FR) & _); rewrite FR; reflexivity).
  destruct FG as [EX BT].
  assert (BT1 : tc_bin tc = LINEAR \/ tc_bin tc = IDENTITY) by (cbn; tauto).
  assert (BO : bins_ok tc) by (unfold bins_ok; cbn; destruct BT as [->|[-> BT]]; auto; destruct BT as [->|BT]; auto; intros; destruct (fc_log_split c); auto).
  destruct (moved_tree M tc a (relabel_args g (rescale_args u a)) u g s W TR (moved_both tc a W u g TR) EX BT1 BO RS ltac:(unfold tc; rewrite CL; apply RL) ltac:(cbn; rewrite CL; exact GC) P (set_np (fs_e z) np') (set_np (fs_e z') np') t1 B) as (t1' & B' & SM & AN).
  pose proof B' as (t0' & e1' & e2' & E6' & E7'). rewrite E6'. cbn [rbind fst snd]. rewrite E7'. cbn [rbind]. rewrite (st_queries _ _ _ _ SM).
  assert (NQ : e_np e2' = e_np e2).
  { rewrite (tree_np M (move_cfg u g s tc) EX BT1 P _ _ _ _ _ _ E6' E7'). symmetry. exact (tree_np M tc EX BT1 P _ _ _ _ _ _ E6 E7). }
  destruct (negb (keep_tree (f_budget (fs_f z)) (t_queries t1))).
  { apply ok_inv in H. subst z1. eexists. split; [reflexivity|]. constructor; cbn [fs_f fs_e fs_h fs_stop]; auto. now apply same_upd. }
  apply rbind_ok in H. destruct H as [[t2 h2] [E8 H]].
  assert (BB : exists t2', (if fc_boosting c then boost c' i (move_cfg u g s tc) t1' (map (move_row u) data) rows2 newr (move_heap g (fs_h z)) else Ok (t1', move_heap g (fs_h z))) = Ok (t2', move_heap g h2) /\
     twin (tc, t2) (move_cfg u g s tc, t2') /\ hint h2).
  { pose proof (tr_rows _ _ _ TR) as NE. assert (NE' : train_rows (relabel_args g (rescale_args u a)) <> []) by exact NE.
    case_eq (fc_boosting c); intros IB; rewrite IB in E8.
    - destruct (boost_sim tc a _ t1 _ _ t1' i data rows2 newr (fs_h z) t2 h2 IB LN F4 B B' NE NE' AN E8) as (t2' & Q1 & Q2 & Q3 & Q4). exists t2'. split; auto. split; auto. eapply cached_twin with (t := t1) (t' := t1'); eauto.
    - apply ok_pair_inv in E8. destruct E8 as [<- <-]. exists t1'. split; auto. split; auto. eapply cached_twin with (t := t1) (t' := t1'); eauto; eapply cached_self; eauto. }
  destruct BB as (t2' & Q1 & Q2 & Q3). rewrite Q1. cbn [rbind]. pose proof (st_queries _ _ _ _ (tw_tree _ _ Q2)) as QQ. cbn [snd] in QQ. rewrite QQ.
  apply rbind_ok in H. destruct H as [un [E9 H]]. rewrite E9. cbn [rbind]. apply ok_inv in H. subst z1. eexists. split; [reflexivity|].
  constructor; cbn [fs_f fs_e fs_h fs_stop]; auto.
  - apply same_upd; auto. apply Forall2_app; auto.
  - cbn [upd_forest f_trees]. apply Forall2_app; auto.
Qed.

Lemma trees_sim l : forall z z' z1, fsimr z z' -> rdy z -> foldM (fit_tree M P c data W) z l = Ok z1 -> exists z1', foldM (fit_tree M P c' (map (move_row u) data) W) z' l = Ok z1' /\ fsimr z1 z1'.
Proof.
  induction l as [|i l IH]; intros z z' z1 S RD H; cbn [foldM] in *; [apply ok_inv in H; subst z1; eauto|].
  apply rbind_ok in H. destruct H as [z2 [E H]]. destruct (fit_tree_sim _ _ _ _ S RD E) as (z2' & E' & S2). rewrite E'. cbn [rbind]. apply (IH z2); auto. revert E. eapply ready_step; eauto.
Qed.
End FSim.

(** ** A whole fit *)
Lemma args_moved u arg f f' g s data r n : same_forest u g s f f' ->
  match arg with (None, None) => Ok (f_data f, f_org f, f_new f) | (Some d, Some r) => Ok (Some d, Some r, Some r) | _ => Err GenericException end = Ok (Some data, Some r, Some n) ->
  match move_arg u arg with (None, None) => Ok (f_data f', f_org f', f_new f') | (Some d, Some r) => Ok (Some d, Some r, Some r) | _ => Err GenericException end = Ok (Some (map (move_row u) data), Some r, Some n).
Proof.
  intros S H. destruct arg as [[d|] [r'|]]; cbn [move_arg fst snd option_map] in *; try discriminate H.
  - congruence.
  - rewrite (fo_data _ _ _ _ _ S), (fo_org _ _ _ _ _ S), (fo_new _ _ _ _ _ S). assert (f_data f = Some data /\ f_org f = Some r /\ f_new f = Some n) as (-> & -> & ->) by (repeat split; congruence). reflexivity.
Qed.

Lemma moved_forest M P c u g s f f' arg h e e' data W f1 h1 e1 :
  forest_trainable c f arg h data W -> forest_fixed_grid c -> (fc_class c = true -> good_classes (f_classes f)) ->
  rescaling (fc_bin c) W u -> frelabelling c (f_classes f) h g s -> same_forest u g s f f' -> e_np e' = e_np e ->
  forest_fit M P c f arg h e = Ok (f1, h1, e1) ->
  exists f1' e1', forest_fit M P (move_fcfg s c) f' (move_arg u arg) (move_heap g h) e' = Ok (f1', move_heap g h1, e1') /\ e_np e1' = e_np e1 /\ same_forest u g s f1 f1' /\ Forall2 (twin u g s) (f_trees f1) (f_trees f1').
Proof.
  intros T FG GC RS RL SF NQ H. pose proof (ft_labels _ _ _ _ _ _ T) as (r & n & la & lb & L1 & L2 & L3 & L4 & L5 & L6 & L7).
  destruct (forest_setup c f arg h data W la 0 T (ex_intro _ r (conj L1 L3))) as (fs & hs & org & new & SU).
  pose proof SU as [S1 S2 S3 S4 S5 S6 (r' & n' & dd & mm & A & HH & DD & MM & F1)]. rewrite S1 in H. apply rbind_ok in H. destruct H as [z [H HZ]].
  assert (NE : exists r0, nth_res data 0 = Ok r0 /\ length r0 = W).
  { destruct (nth_res_lt data 0 (ft_rows _ _ _ _ _ _ T)) as [r0 E]. exists r0. split; auto. apply (ft_rect _ _ _ _ _ _ T). apply nth_res_ok in E. eapply nth_error_In; eauto. }
  destruct NE as (r0 & ER & LR).
  assert (HH' : (if fc_class c then do a <- astype_int (move_heap g h) r'; do b <- astype_int (fst a) n'; Ok (Some (snd a), Some (snd b), fst b) else Ok (Some r', Some n', move_heap g h)) = Ok (Some org, Some new, move_heap g hs)).
  { unfold frelabelling in RL. case_eq (fc_class c); intros IC; rewrite IC in *; [|congruence].
    apply rbind_ok in HH. destruct HH as [[ha ra] [E1 HH]]. cbn [fst snd] in HH. apply rbind_ok in HH. destruct HH as [[hb rb] [E2 HH]]. cbn [fst snd] in HH. destruct RL as (_ & TR & _).
    
    assert (RN : nth_error h r' = Some la /\ nth_error h n' = Some lb).
    { clear - A L1 L2 L3 L4. unfold fit_ref, boost_ref in *. destruct arg as [[d|] [q|]]; cbn [snd] in *; try discriminate A; split; congruence. }
    destruct RN as [R1 R2]. rewrite (astype_moved g _ _ _ _ (fun l y Hl => TR l y (nth_error_In _ _ Hl)) E1). cbn [rbind fst snd].
    assert (TR2 : forall l y, nth_error ha n' = Some l -> In y (la_vals l) -> trunc (g y) = g (trunc y)).
    { intros l y Hl. unfold astype_int in E1. apply rbind_ok in E1. destruct E1 as [l1 [_ E1]]. injection E1 as <- _. rewrite nth_error_app1 in Hl by (apply nth_error_Some; congruence). apply TR. eapply nth_error_In; eauto. }
    rewrite (astype_moved g _ _ _ _ TR2 E2). cbn [rbind fst snd]. congruence. }
  assert (DD' : match fc_bin c with LINEAR | IDENTITY => false | _ => fc_make_discrete c end = false) by (destruct FG as [_ [->|[-> _]]]; reflexivity).
  rewrite DD' in DD.
  assert (MM' : (if fc_precomp_minmax c then do m <- col_minmax (map (move_row u) data) W; Ok (Some m) else Ok (f_minmax f')) = Ok (option_map (fun p => (move_row u (fst p), move_row u (snd p))) mm)).
  { destruct (fc_precomp_minmax c).
    - apply rbind_ok in MM. destruct MM as [[mn mx] [E MM]]. injection MM as <-. rewrite (minmax_moved u data W mn mx) by (auto; intros; now apply RS). reflexivity.
    - injection MM as <-. now rewrite (fo_minmax _ _ _ _ _ SF). }
  set (fs' := {| f_data := Some (map (move_row u) data); f_org := Some org; f_new := Some new; f_trees := []; f_classes := f_classes f'; f_ncl := f_ncl f'; f_dd := f_dd f'; f_minmax := option_map (fun p => (move_row u (fst p), move_row u (snd p))) mm;
     f_budget := f_budget f'; f_queries := f_queries f'; f_oob := if fc_oob c then [] else f_oob f'; f_mdg := f_mdg f'; f_gen := f_gen f' |}).
  assert (RUN : forest_fit M P (move_fcfg s c) f' (move_arg u arg) (move_heap g h) e' = do z <- foldM (fit_tree M P (move_fcfg s c) (map (move_row u) data) W) {| fs_f := fs'; fs_e := e'; fs_h := move_heap g hs; fs_stop := false |} (seq 0 (fc_n c)); Ok (fs_f z, fs_h z, fs_e z)).
  { unfold forest_fit. rewrite (args_moved u arg f f' g s data r' n' SF A). cbn [rbind opt_res]. rewrite (nth_res_map (move_row u) _ _ _ ER). cbn [rbind]. rewrite move_row_length, LR.
    change (fc_class (move_fcfg s c)) with (fc_class c). rewrite HH'. cbn [rbind]. cbv zeta. change (fc_bin (move_fcfg s c)) with (fc_bin c). change (fc_make_discrete (move_fcfg s c)) with (fc_make_discrete c). rewrite DD'. cbn [rbind].
    change (fc_precomp_minmax (move_fcfg s c)) with (fc_precomp_minmax c). rewrite MM'. cbn [rbind]. reflexivity. }
  assert (LIN : lin c g /\ hint c g h).
  { unfold frelabelling in RL. destruct (fc_class c) eqn:IC.
    - split; intros B; destruct (ft_boost _ _ _ _ _ _ T B); congruence.
    - destruct RL as (k & b & K0 & _ & KB & HB). split; intros B; destruct (HB B) as [-> Z].
      + exists k. intros y. rewrite KB. ring.
      + destruct Z as [->|Z]; [left; intros y; rewrite KB; ring|now right]. }
  destruct LIN as [LN HI].
  assert (HI1 : hint c g hs).
  { intros B. destruct (ft_boost _ _ _ _ _ _ T B) as [IC _]. rewrite IC in HH. assert (hs = h) by congruence. subst hs. exact (HI B). }
  assert (SS : same_forest u g s fs fs').
  { destruct SF. rewrite F1. constructor; cbn; auto; try congruence; try constructor. destruct (fc_oob c); auto. }
  destruct (trees_sim M P c u g s data W f arg h fs hs org new _ (ft_rows _ _ _ _ _ _ T) (ft_cols _ _ _ _ _ _ T) (ft_boost _ _ _ _ _ _ T) (ft_draws _ _ _ _ _ _ T) SU FG) with (z := {| fs_f := fs; fs_e := e; fs_h := hs; fs_stop := false |}) (z' := {| fs_f := fs'; fs_e := e'; fs_h := move_heap g hs; fs_stop := false |}) (l := seq 0 (fc_n c)) (z1 := z) as (z' & E' & [Z1 Z2 Z3 Z4 Z5 Z6]); auto.
  - rewrite F1. exact GC.
  - intros mm0. rewrite F1. unfold relabelling, frelabelling in *. cbn [tree_cfg tc_class tc_classes f_classes]. destruct (fc_class c); [tauto|]. destruct RL as (k & b & R1 & R2 & R3 & _). eauto.
  - constructor; cbn [fs_f fs_e fs_h fs_stop]; auto. rewrite F1. constructor.
  - split; [|split; [|split]]; auto. cbn [fs_f]. exists (f_trees fs), (f_budget fs), (f_queries fs), (f_oob fs), (f_gen fs). now destruct fs.
  - apply ok_inv in HZ. apply pair_equal_spec in HZ. destruct HZ as [HZ <-]. apply pair_equal_spec in HZ. destruct HZ as [<- <-].
    exists (fs_f z'), (fs_e z'). rewrite RUN, E'. cbn [rbind]. rewrite Z3. auto.
Qed.

(** ** Using the forest *)
Lemma twins_predict u g s ts ts' x : Forall2 (twin u g s) ts ts' -> answer (trees_predict ts' (move_row u x)) = match answer (trees_predict ts x) with Ok ps => Ok (map (move_pred g) ps) | Err er => Err er end.
Proof.
  induction 1 as [|[tc t] [tc' t'] ts ts' TW F IH]; [reflexivity|]. cbn [trees_predict]. pose proof (tw_ans _ _ _ _ _ TW x) as A. cbn [fst snd] in A.
  destruct (tree_predict tc t x) as [[p t1]|er]; destruct (tree_predict tc' t' (move_row u x)) as [[p' t1']|er']; cbn [answer move_answer rbind] in *; try discriminate A; [|congruence]. injection A as ->.
  destruct (trees_predict ts x) as [[ps ts1]|er]; destruct (trees_predict ts' (move_row u x)) as [[ps' ts1']|er']; cbn [answer rbind fst snd map] in *; congruence.
Qed.
Lemma mapM_same {A B C} (f : A -> res C) (f' : B -> res C) (k : A -> B) l : (forall a, In a l -> f' (k a) = f a) -> mapM f' (map k l) = mapM f l.
Proof. intros H. rewrite mapM_map. apply mapM_ext. auto. Qed.
Lemma preds_reg_move g ps : preds_reg (map (move_pred g) ps) = match preds_reg ps with Ok vs => Ok (map g vs) | Err er => Err er end.
Proof.
  unfold preds_reg. induction ps as [|p ps IH]; cbn [map mapM]; auto. destruct p as [l q|v]; cbn [move_pred rbind]; auto. rewrite IH. now destruct (mapM _ ps).
Qed.
Lemma moved_predict c u g s f f' d h x : frelabelling c d h g s -> same_forest u g s f f' -> Forall2 (twin u g s) (f_trees f) (f_trees f') -> f_classes f = d -> (fc_boosting c = true -> fc_class c = false) ->
  answer (forest_predict (move_fcfg s c) f' (move_row u x)) = move_fanswer g (answer (forest_predict c f x)).
Proof.
  intros RL SF TW FD BC. rewrite !forest_answer_trees. rewrite (twins_predict u g s _ _ x TW). change (fc_class (move_fcfg s c)) with (fc_class c). change (fc_boosting (move_fcfg s c)) with (fc_boosting c). change (fc_lr (move_fcfg s c)) with (fc_lr c).
  destruct (answer (trees_predict (f_trees f) x)) as [ps|]; [|reflexivity]. cbn [rbind]. rewrite (fo_ncl _ _ _ _ _ SF), (fo_classes _ _ _ _ _ SF).
  assert (KN : forall i, nth_res (map fst (map (fun p : Qc * nat => (g (fst p), snd p)) (f_classes f))) i = match nth_res (map fst (f_classes f)) i with Ok l => Ok (g l) | Err er => Err er end).
  { intros i. rewrite map_map. cbn [fst]. unfold nth_res. rewrite !nth_error_map. destruct (nth_error (f_classes f) i); reflexivity. }
  unfold frelabelling in RL. case_eq (fc_class c); intros IC; rewrite IC in RL.
  - rewrite mapM_same with (f := probs_of (f_ncl f)) by (intros [l q|v] _; reflexivity). destruct (mapM (probs_of (f_ncl f)) ps) as [rows|]; [|reflexivity]. cbn [rbind]. destruct rows as [|r rows].
    + rewrite KN. destruct (nth_res (map fst (f_classes f)) 0); reflexivity.
    + destruct (argmax _) as [i|]; [|reflexivity]. cbn [rbind]. rewrite KN. destruct (nth_res (map fst (f_classes f)) i); reflexivity.
  - rewrite preds_reg_move. destruct (preds_reg ps) as [vs|]; [|reflexivity]. cbn [rbind]. destruct RL as (k & b & K0 & KS & KG & KB). destruct (fc_boosting c).
    + destruct (KB eq_refl) as [-> _]. destruct vs as [|v vs]; [reflexivity|]. cbn [map]. destruct (fc_lr c) as [lr|]; [|reflexivity]. cbn [opt_res rbind answer move_fanswer move_fpred]. do 2 f_equal.
      revert v. induction vs as [|w vs IH]; intros v; cbn [map fold_left]; auto. rewrite <- IH. f_equal. rewrite !KG. ring.
    + destruct vs as [|v vs]; [reflexivity|]. cbn [map move_fanswer move_fpred]. do 2 f_equal. change qmean with mean. change (g v :: map g vs) with (map g (v :: vs)). rewrite KG, (map_ext g (fun y => k * y + b)%Qc) by auto. now apply mean_affine.
Qed.

(** ** Importances *)
Lemma xadd_move s x y : xadd (move_x s x) (move_x s y) = move_x s (xadd x y).
Proof. destruct x, y; cbn; auto. f_equal. ring. Qed.
Lemma add_at_move s l i v l' : add_at l i v = Ok l' -> add_at (map (move_x s) l) i (move_x s v) = Ok (map (move_x s) l').
Proof.
  unfold add_at. intros H. apply rbind_ok in H. destruct H as [x [E H]]. rewrite (nth_res_map _ _ _ _ E). cbn [rbind]. injection H as <-. now rewrite xadd_move, set_nth_map.
Qed.
Lemma helper_move u s ns ns' : Forall2 (same_node u s) ns ns' -> forall k id arr arr', mdi_helper ns k id arr = Ok arr' -> mdi_helper ns' k id (map (move_x s) arr) = Ok (map (move_x s) arr').
Proof.
  intros F. induction k as [|k IH]; intros id arr arr' H; cbn [mdi_helper] in *.
  all: apply rbind_ok in H; destruct H as [nd [E H]]; apply nth_res_ok in E; destruct (Forall2_nth _ _ _ _ _ F E) as (nd' & E' & N); apply nth_res_ok in E'; rewrite E'; cbn [rbind];
    rewrite (sn_red _ _ _ _ N), (sn_sf _ _ _ _ N), (sn_left _ _ _ _ N); try rewrite (sn_right _ _ _ _ N); apply rbind_ok in H; destruct H as [arr1 [E1 H]];
    assert (Q : match option_map (move_x s) (nd_red nd) with None => Ok (map (move_x s) arr) | Some r => do sf <- opt_res (nd_sf nd) IndexError; add_at (map (move_x s) arr) sf r end = Ok (map (move_x s) arr1))
      by (destruct (nd_red nd) as [r|]; cbn [option_map]; [apply rbind_ok in E1; destruct E1 as [sf [E1 E2]]; rewrite E1; cbn [rbind]; now apply add_at_move|congruence]);
    rewrite Q; cbn [rbind]; destruct (nd_left nd) as [l|]; [|congruence].
  - discriminate H.
  - apply rbind_ok in H. destruct H as [arr2 [E2 H]]. rewrite (IH _ _ _ E2). cbn [rbind]. apply rbind_ok in H. destruct H as [r [E3 H]]. rewrite E3. cbn [rbind]. auto.
Qed.
Lemma moved_mdi u g s f f' arr f2 : same_forest u g s f f' -> calculate_mdi f = Ok (arr, f2) -> exists f2', calculate_mdi f' = Ok (map (move_x s) arr, f2') /\ same_forest u g s f2 f2'.
Proof.
  intros SF H. unfold calculate_mdi in *. rewrite (fo_mdg _ _ _ _ _ SF). destruct (f_mdg f) as [m|] eqn:MD; cbn [option_map].
  - apply ok_pair_inv in H. destruct H as [<- <-]. eauto.
  - apply rbind_ok in H. destruct H as [data [E1 H]]. apply opt_res_ok in E1. rewrite (fo_data _ _ _ _ _ SF), E1. cbn [option_map opt_res rbind]. apply rbind_ok in H. destruct H as [r0 [E2 H]]. rewrite (nth_res_map _ _ _ _ E2). cbn [rbind]. rewrite move_row_length.
    apply rbind_ok in H. destruct H as [arr1 [E3 H]]. apply ok_pair_inv in H. destruct H as [<- <-].
    assert (Q : foldM (fun a ct => mdi_helper (t_nodes (snd ct)) (length (t_nodes (snd ct))) 0 a) (repeat (Fin 0) (length r0)) (f_trees f') = Ok (map (move_x s) arr1)).
    { replace (repeat (Fin 0%Qc) (length r0)) with (map (move_x s) (repeat (Fin 0%Qc) (length r0))) by (clear; induction (length r0); cbn; [auto|rewrite IHn; do 2 f_equal; ring]).
      revert E3. generalize (repeat (Fin 0%Qc) (length r0)) as a. pose proof (fo_trees _ _ _ _ _ SF) as F. revert F. generalize (f_trees f) as ts, (f_trees f') as ts'. clear.
      induction 1 as [|ct ct' ts ts' [_ ST] F IH]; intros a H; cbn [foldM] in *; [congruence|]. apply rbind_ok in H. destruct H as [a1 [E H]]. pose proof (st_nodes _ _ _ _ ST) as SN.
      assert (LL : length (t_nodes (snd ct')) = length (t_nodes (snd ct))) by (symmetry; eapply Forall2_len; eauto). rewrite LL, (helper_move u s _ _ SN _ _ _ _ E). cbn [rbind]. auto. }
    rewrite Q. cbn [rbind]. eexists. split; [reflexivity|]. destruct SF. constructor; cbn [f_data f_org f_new f_trees f_classes f_ncl f_dd f_minmax f_budget f_queries f_oob f_mdg f_gen option_map]; auto. now rewrite E1.
Qed.

(** ** Out-of-bag scores *)
Section Oob.
Context (u : units) (g : Qc -> Qc) (s k : Qc) (cl : bool).
Context (G : if cl then forall y, g y = y else forall y, g y = (k * y)%Qc).
Definition gsc (y : Qc) : Qc := if cl then y else (k * y)%Qc.
Definition move_acc (a : list Qc * nat) : list Qc * nat := (map gsc (fst a), snd a).
Lemma gsc_add a b : (gsc a + gsc b)%Qc = gsc (a + b)%Qc.
Proof. unfold gsc. destruct cl; [auto|ring]. Qed.
Lemma add_rows_move idcs rows : forall acc, add_rows (map move_acc acc) idcs (map (map gsc) rows) = map move_acc (add_rows acc idcs rows).
Proof.
  unfold add_rows. revert rows. induction idcs as [|i idcs IH]; intros [|r rows] acc; cbn [map combine fold_left]; auto. cbn [fst snd]. rewrite nth_error_map. destruct (nth_error acc i) as [[v n]|] eqn:E; cbn [option_map move_acc fst snd]; [|apply IH].
  rewrite <- IH. f_equal. rewrite <- set_nth_map. f_equal. unfold move_acc. cbn [fst snd]. f_equal. rewrite combine_maps, !map_map. apply map_ext. intros p. cbn [fst snd]. apply gsc_add.
Qed.
Lemma pred_row_move p r : pred_row cl p = Ok r -> pred_row cl (move_pred g p) = Ok (map gsc r).
Proof.
  unfold pred_row, gsc. revert G. destruct p as [l q|v]; destruct cl; cbn [move_pred]; intros HG H; try discriminate H; injection H as <-; cbn [map].
  - f_equal. symmetry. apply map_id.
  - now rewrite HG.
Qed.
Lemma oob_move data : forall ts ts' oob acc acc1 ts1, Forall2 (twin u g s) ts ts' -> oob_accumulate cl data ts oob acc = Ok (acc1, ts1) ->
  exists ts1', oob_accumulate cl (map (move_row u) data) ts' oob (map move_acc acc) = Ok (map move_acc acc1, ts1') /\
    Forall2 (fun ct ct' => fst ct' = move_cfg u g s (fst ct) /\ same_tree u s (snd ct) (snd ct')) ts1 ts1'.
Proof.
  intros ts ts' oob acc acc1 ts1 F. revert oob acc acc1 ts1. induction F as [|[tc t] [tc' t'] ts ts' TW F IH]; intros oob acc acc1 ts1 H; cbn [oob_accumulate] in *.
  - apply ok_pair_inv in H. destruct H as [<- <-]. eauto.
  - apply rbind_ok in H. destruct H as [idcs [E1 H]]. rewrite E1. cbn [rbind]. rewrite map_length. apply rbind_ok in H. destruct H as [un [E2 H]]. rewrite E2. cbn [rbind].
    apply rbind_ok in H. destruct H as [rows [E3 H]]. rewrite (take_idx_map _ _ _ _ E3). cbn [rbind]. apply rbind_ok in H. destruct H as [[ps t2] [E4 H]]. cbn [fst snd] in H.
    destruct (tw_batch _ _ _ _ _ TW rows ps t2 E4) as (t2' & E4' & ST). cbn [fst snd] in E4'. rewrite E4'. cbn [rbind fst snd]. apply rbind_ok in H. destruct H as [prs [E5 H]].
    rewrite (mapM_move _ (pred_row cl) (move_pred g) (map gsc) _ _ (fun p r _ => pred_row_move p r) E5). cbn [rbind]. apply rbind_ok in H. destruct H as [[acc2 ts2] [E6 H]]. cbn [fst snd] in H. apply ok_pair_inv in H. destruct H as [<- <-].
    rewrite add_rows_move. destruct (IH _ _ _ _ E6) as (ts1' & E6' & FF). rewrite E6'. cbn [rbind fst snd]. eexists. split; [reflexivity|]. constructor; auto. cbn [fst snd]. split; auto. exact (tw_cfg _ _ _ _ _ TW).
Qed.
End Oob.
Lemma move_x_one x : move_x 1%Qc x = x.
Proof. destruct x; cbn; auto. f_equal. ring. Qed.
Lemma total_scaled k l : qsum (map (fun y => k * y)%Qc l) = (k * qsum l)%Qc.
Proof. change qsum with total. apply total_scale. Qed.
Lemma moved_oob c u g s k f f' h d sc f2 : (if fc_class c then s = 1%Qc /\ (forall y, g y = y) else s = (k * k)%Qc /\ forall y, g y = (k * y)%Qc) ->
  same_forest u g s f f' -> Forall2 (twin u g s) (f_trees f) (f_trees f') -> get_oob_score c f h d = Ok (sc, f2) ->
  exists f2', get_oob_score (move_fcfg s c) f' (move_heap g h) (option_map (map (move_row u)) d) = Ok (move_x s sc, f2') /\ same_forest u g s f2 f2'.
Proof.
  intros G SF TW H. unfold get_oob_score in *. apply rbind_ok in H. destruct H as [dt [E1 H]]. apply opt_res_ok in E1.
  assert (E1' : match option_map (map (move_row u)) d with Some d => Some d | None => f_data f' end = Some (map (move_row u) dt)).
  { destruct d; cbn [option_map] in *; [congruence|]. now rewrite (fo_data _ _ _ _ _ SF), E1. }
  rewrite E1'. cbn [opt_res rbind]. rewrite (fo_org _ _ _ _ _ SF). apply rbind_ok in H. destruct H as [r [E2 H]]. rewrite E2. cbn [rbind]. apply rbind_ok in H. destruct H as [la [E3 H]]. rewrite (heap_read g _ _ _ E3). cbn [rbind]. cbv zeta in *.
  change (fc_class (move_fcfg s c)) with (fc_class c) in *. cbn [move_larr la_vals]. rewrite (fo_classes _ _ _ _ _ SF), map_length, (fo_oob _ _ _ _ _ SF).
  apply rbind_ok in H. destruct H as [[acc ts] [E4 H]].
  assert (G1 : if fc_class c then forall y, g y = y else forall y, g y = (k * y)%Qc) by (destruct (fc_class c); tauto).
  destruct (oob_move u g s k (fc_class c) G1 dt _ _ _ _ _ _ TW E4) as (ts' & E4' & FF).
  assert (Z0 : map (move_acc k (fc_class c)) (map (fun _ => (repeat 0%Qc (if fc_class c then length (f_classes f) else 1), 0)) (la_vals la)) = map (fun _ => (repeat 0%Qc (if fc_class c then length (f_classes f) else 1), 0)) (map g (la_vals la))).
  { rewrite !map_map. apply map_ext. intros _. unfold move_acc. cbn [fst snd]. f_equal. generalize (if fc_class c then length (f_classes f) else 1) as n. induction n as [|n IH]; cbn; auto. rewrite IH. f_equal. unfold gsc. destruct (fc_class c); [auto|ring]. }
  rewrite <- Z0, E4'. cbn [rbind].
  set (kept := filter (fun lv => negb (snd (snd lv) =? 0)) (combine (la_vals la) acc)) in *.
  set (mv := fun lv : Qc * (list Qc * nat) => (g (fst lv), move_acc k (fc_class c) (snd lv))).
  assert (KP : filter (fun lv => negb (snd (snd lv) =? 0)) (combine (map g (la_vals la)) (map (move_acc k (fc_class c)) acc)) = map mv kept).
  { rewrite combine_maps. unfold kept, mv. rewrite filter_map_comm. reflexivity. }
  rewrite KP, map_length.
  assert (SF2 : same_forest u g s (set_trees f ts) (set_trees f' ts')).
  { unfold set_trees. rewrite (fo_budget _ _ _ _ _ SF), (fo_queries _ _ _ _ _ SF), (fo_oob _ _ _ _ _ SF), (fo_gen _ _ _ _ _ SF). destruct SF. constructor; cbn; auto. }
  case_eq (fc_class c); intros IC; rewrite IC in *.
  - destruct G as [-> G]. apply rbind_ok in H. destruct H as [hits [E5 H]]. apply ok_pair_inv in H. destruct H as [<- <-]. rewrite mapM_same with (f := fun lv : Qc * (list Qc * nat) => do i <- argmax (fst (snd lv)); Ok (if qeq (fst lv) (Nq i) then 1%Qc else 0%Qc)).
    + rewrite E5. cbn [rbind]. rewrite move_x_one. eauto.
    + intros [l [v n]] _. unfold mv, move_acc. cbn [fst snd]. rewrite ?IC. change (map (gsc k true) v) with (map (fun y => y) v). now rewrite map_id, G.
  - destruct G as [-> G]. apply ok_pair_inv in H. destruct H as [<- <-]. eexists. split; [|exact SF2]. f_equal. f_equal.
    match goal with |- xdiv (Fin (qsum (map ?F (map mv kept)))) _ = move_x _ (xdiv (Fin (qsum (map ?H kept))) _) => replace (map F (map mv kept)) with (map (fun y => (k * k) * y)%Qc (map H kept)) end.
    + rewrite total_scaled. unfold xdiv. destruct kept as [|q kept].
      * cbn [length map]. change (Nq 0) with 0%Qc. replace (k * k * qsum [])%Qc with 0%Qc by (cbn; ring). reflexivity.
      * destruct (qeq (Nq (length (q :: kept))) 0%Qc) eqn:Z; [|cbn [move_x]; f_equal; unfold Qcdiv; ring]. exfalso. apply qeq_spec in Z. revert Z. apply Nq_neq0. cbn. lia.
    + rewrite !map_map. apply map_ext. intros [l [v n]]. unfold mv, move_acc. cbn [fst snd]. rewrite ?IC, G. replace (nth 0 (map (gsc k false) v) 0%Qc) with (k * nth 0 v 0)%Qc; [unfold Qcdiv; ring|].
      destruct v; cbn; [ring|reflexivity].
Qed.

(** ** From construction *)
Lemma uinsert_map g a l : increasing g -> uinsert (g a) (map g l) = map g (uinsert a l).
Proof.
  intros I. induction l as [|b l IH]; cbn [map uinsert]; auto. rewrite incr_qlt by auto. destruct (qlt a b); [reflexivity|].
  assert (E : qeq (g a) (g b) = qeq a b).
  { destruct (qeq a b) eqn:E; [apply qeq_spec in E; subst; now apply qeq_spec|]. destruct (qeq (g a) (g b)) eqn:E2; auto. apply qeq_spec in E2. apply incr_inj in E2; auto. subst b. rewrite (proj2 (qeq_spec a a) eq_refl) in E. discriminate. }
  rewrite E. destruct (qeq a b); [reflexivity|]. cbn [map]. now rewrite IH.
Qed.
Lemma unique_map g l : increasing g -> unique (map g l) = map g (unique l).
Proof. intros I. unfold unique. induction l as [|a l IH]; cbn [map fold_right]; auto. now rewrite IH, uinsert_map. Qed.
Lemma class_to_idx_map g l : class_to_idx (map g l) = rename g (class_to_idx l).
Proof. unfold class_to_idx. rewrite map_length. generalize (seq 0 (length l)) as k. induction l as [|a l IH]; intros [|i k]; cbn; auto. now rewrite IH. Qed.

Lemma moved_new P c u g s data labels classes budget h e e' f e1 :
  (fc_class c = true -> classes = None -> increasing g) -> forest_new P c data labels classes budget h e = Ok (f, e1) ->
  exists f' e1', forest_new P (move_fcfg s c) (option_map (map (move_row u)) data) labels (option_map (rename g) classes) budget (move_heap g h) e' = Ok (f', e1') /\ same_forest u g s f f' /\ e_np e1' = e_np e1.
Proof.
  intros I H. unfold forest_new in *. cbn [move_fcfg fc_class fc_seed fc_boosting fc_lr fc_oob fc_bootstrap]. apply rbind_ok in H. destruct H as [[d n] [E H]]. cbv zeta in *. cbn [fst snd] in *.
  assert (E' : (if fc_class c then match option_map (rename g) classes with Some d => Ok (d, length d) | None => match labels with Some r => do a <- nth_res (move_heap g h) r; Ok (class_to_idx (unique (la_vals a)), length (class_to_idx (unique (la_vals a)))) | None => Ok ([], 1) end end else Ok ([], 0)) = Ok (rename g d, n)).
  { destruct (fc_class c); [|apply ok_pair_inv in E; destruct E as [<- <-]; reflexivity]. destruct classes as [d'|]; cbn [option_map].
    - apply ok_pair_inv in E. destruct E as [<- <-]. unfold rename. now rewrite map_length.
    - destruct labels as [r|]; [|apply ok_pair_inv in E; destruct E as [<- <-]; reflexivity]. apply rbind_ok in E. destruct E as [la [E E2]]. rewrite (heap_read g _ _ _ E). cbn [rbind move_larr la_vals]. rewrite unique_map, class_to_idx_map by auto.
      apply ok_pair_inv in E2. destruct E2 as [<- <-]. unfold rename at 2. now rewrite map_length. }
  rewrite E'. cbn [rbind fst snd]. apply rbind_ok in H. destruct H as [u1 [G1 H]]. rewrite G1. cbn [rbind]. apply rbind_ok in H. destruct H as [u2 [G2 H]]. rewrite G2. cbn [rbind]. apply rbind_ok in H. destruct H as [u3 [G3 H]]. rewrite G3. cbn [rbind].
  apply ok_pair_inv in H. destruct H as [<- <-]. eexists _, _. split; [reflexivity|]. split; [constructor; cbn; auto|reflexivity].
Qed.

Lemma same_fcfg c : move_fcfg 1%Qc c = c.
Proof. unfold move_fcfg. replace (1 * fc_min_imp c)%Qc with (fc_min_imp c) by ring. destruct c; reflexivity. Qed.
Lemma same_heap h : move_heap (fun y => y) h = h.
Proof. unfold move_heap. rewrite <- (map_id h) at 2. apply map_ext. intros [b l]. cbn. now rewrite map_id. Qed.
Lemma same_names d : rename (fun y => y) d = d.
Proof. unfold rename. rewrite <- (map_id d) at 2. apply map_ext. now intros []. Qed.
Lemma same_fanswer r : move_fanswer (fun y => y) r = r.
Proof. destruct r as [[]|]; reflexivity. Qed.
Lemma same_xs l : map (move_x 1%Qc) l = l.
Proof. rewrite <- (map_id l) at 2. apply map_ext. apply move_x_one. Qed.
Lemma id_relabelling c d h : frelabelling c d h (fun y => y) 1%Qc.
Proof.
  unfold frelabelling. destruct (fc_class c); [auto|]. exists 1%Qc, 0%Qc. split; [discriminate|]. split; [ring|]. split; [intros; ring|]. auto.
Qed.
Lemma fit_classes M P c f arg h e f1 h1 e1 : forest_fit M P c f arg h e = Ok (f1, h1, e1) -> f_classes f1 = f_classes f.
Proof.
  intros H. unfold forest_fit in H. apply rbind_ok in H. destruct H as [[[od org] new] [_ H]]. apply rbind_ok in H. destruct H as [data [_ H]]. apply rbind_ok in H. destruct H as [r0 [_ H]]. apply rbind_ok in H. destruct H as [[[o n] hh] [_ H]]. cbv zeta in H.
  apply rbind_ok in H. destruct H as [dd [_ H]]. apply rbind_ok in H. destruct H as [mm [_ H]]. apply rbind_ok in H. destruct H as [z [E H]]. apply ok_inv in H. apply pair_equal_spec in H. destruct H as [H _]. apply pair_equal_spec in H. destruct H as [<- _].
  revert E. apply (foldM_inv _ (fun z => f_classes (fs_f z) = f_classes f)); [reflexivity|]. intros i s1 s2 _ C Q. unfold fit_tree in Q. destruct (fs_stop s1); [apply ok_inv in Q; now subst s2|].
  apply rbind_ok in Q. destruct Q as [[[rows feats] gen1] [_ Q]]. destruct (match f_budget (fs_f s1) with Some b => (b <=? 0)%Z | None => false end); [apply ok_inv in Q; subst s2; exact C|].
  apply rbind_ok in Q. destruct Q as [x1 [_ Q]]. apply rbind_ok in Q. destruct Q as [x2 [_ Q]]. apply rbind_ok in Q. destruct Q as [[x3 x4] [_ Q]]. destruct (draw _) as [sd np]. apply rbind_ok in Q. destruct Q as [x5 [_ Q]]. cbv zeta in Q. apply rbind_ok in Q. destruct Q as [x6 [_ Q]]. apply rbind_ok in Q. destruct Q as [[x7 x8] [_ Q]].
  destruct (negb _); [apply ok_inv in Q; subst s2; exact C|]. apply rbind_ok in Q. destruct Q as [[x9 x10] [_ Q]]. apply rbind_ok in Q. destruct Q as [x11 [_ Q]]. apply ok_inv in Q. subst s2. exact C.
Qed.

Theorem relabelled_forest M P c u g s d labels classes budget h e f e0 arg data W f1 h1 e1 :
  forest_new P c d labels classes budget h e = Ok (f, e0) -> forest_trainable c f arg h data W -> forest_fixed_grid c -> (fc_class c = true -> good_classes (f_classes f)) ->
  (fc_class c = true -> classes = None -> increasing g) -> rescaling (fc_bin c) W u -> frelabelling c (f_classes f) h g s ->
  forest_fit M P c f arg h e0 = Ok (f1, h1, e1) ->
  forall e', exists f' e0' f1' e1', forest_new P (move_fcfg s c) (option_map (map (move_row u)) d) labels (option_map (rename g) classes) budget (move_heap g h) e' = Ok (f', e0') /\
    forest_fit M P (move_fcfg s c) f' (move_arg u arg) (move_heap g h) e0' = Ok (f1', move_heap g h1, e1') /\ same_forest u g s f1 f1' /\
    (forall x, answer (forest_predict (move_fcfg s c) f1' (move_row u x)) = move_fanswer g (answer (forest_predict c f1 x))) /\
    (forall arr f2, calculate_mdi f1 = Ok (arr, f2) -> exists f2', calculate_mdi f1' = Ok (map (move_x s) arr, f2')) /\
    ((if fc_class c then forall y, g y = y else exists k, s = (k * k)%Qc /\ forall y, g y = (k * y)%Qc) -> forall dt sc f2, get_oob_score c f1 h1 dt = Ok (sc, f2) ->
      exists f2', get_oob_score (move_fcfg s c) f1' (move_heap g h1) (option_map (map (move_row u)) dt) = Ok (move_x s sc, f2')).
Proof.
  intros N T FG GC IG RS RL H e'. destruct (moved_new P c u g s d labels classes budget h e e' f e0 IG N) as (f' & e0' & N' & SF & NP).
  destruct (moved_forest M P c u g s f f' arg h e0 e0' data W f1 h1 e1 T FG GC RS RL SF NP H) as (f1' & e1' & H' & _ & SF1 & TW).
  exists f', e0', f1', e1'. split; auto. split; auto. split; auto. split; [|split].
  - intros x. eapply moved_predict; eauto. + eapply fit_classes; eauto. + intros B. now destruct (ft_boost _ _ _ _ _ _ T B).
  - intros arr f2 Q. destruct (moved_mdi u g s f1 f1' arr f2 SF1 Q) as (f2' & Q' & _). eauto.
  - intros G dt sc f2 Q.
    assert (G2 : exists k, if fc_class c then s = 1%Qc /\ (forall y, g y = y) else s = (k * k)%Qc /\ forall y, g y = (k * y)%Qc).
    { unfold frelabelling in RL. destruct (fc_class c); [exists 0%Qc; tauto|]. destruct G as [k G]. now exists k. }
    destruct G2 as [k G2]. destruct (moved_oob c u g s k f1 f1' h1 dt sc f2 G2 SF1 TW Q) as (f2' & Q' & _). eauto.
Qed.

Theorem rescaled_forest M P c u d labels classes budget h e f e0 arg data W f1 h1 e1 :
  forest_new P c d labels classes budget h e = Ok (f, e0) -> forest_trainable c f arg h data W -> forest_fixed_grid c -> (fc_class c = true -> good_classes (f_classes f)) ->
  rescaling (fc_bin c) W u -> forest_fit M P c f arg h e0 = Ok (f1, h1, e1) ->
  forall e', exists f' e0' f1' e1', forest_new P c (option_map (map (move_row u)) d) labels classes budget h e' = Ok (f', e0') /\
    forest_fit M P c f' (move_arg u arg) h e0' = Ok (f1', h1, e1') /\ same_forest u (fun y => y) 1 f1 f1' /\
    (forall x, answer (forest_predict c f1' (move_row u x)) = answer (forest_predict c f1 x)) /\
    (forall arr f2, calculate_mdi f1 = Ok (arr, f2) -> exists f2', calculate_mdi f1' = Ok (arr, f2')) /\
    (forall dt sc f2, get_oob_score c f1 h1 dt = Ok (sc, f2) -> exists f2', get_oob_score c f1' h1 (option_map (map (move_row u)) dt) = Ok (sc, f2')).
Proof.
  intros N T FG GC RS H e'.
  destruct (relabelled_forest M P c u (fun y => y) 1%Qc d labels classes budget h e f e0 arg data W f1 h1 e1 N T FG GC (fun _ _ x y L => L) RS (id_relabelling _ _ _) H e') as (f' & e0' & f1' & e1' & N' & H' & S & A1 & A2 & A3).
  rewrite same_fcfg in *. rewrite !same_heap in *. assert (CC : option_map (rename (fun y => y)) classes = classes) by (destruct classes; cbn; [now rewrite same_names|auto]). rewrite CC in N'.
  exists f', e0', f1', e1'. split; auto. split; auto. split; auto. split; [|split].
  - intros x. rewrite A1. apply same_fanswer.
  - intros arr f2 Q. destruct (A2 _ _ Q) as (f2' & Q'). rewrite same_xs in Q'. eauto.
  - intros dt sc f2 Q. destruct (A3 ltac:(destruct (fc_class c); [auto|exists 1%Qc; split; [ring|intros; ring]]) _ _ _ Q) as (f2' & Q'). rewrite move_x_one in Q'. eauto.
Qed.

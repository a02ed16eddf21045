(** Forests of exhaustive trees with different budgets, side by side. *)
From Coq Require Import List Arith Bool ZArith QArith Qcanon Lia.
From Verif Require Import Base Num Rng Histogram Utils Criteria Solvers Tree Forest Spec SolverSpec TreeSpec TrainSpec ForestSpec NestSpec GrowSpec BudgetSpec FBudgetSpec ListFacts NumFacts TreeFacts TreeThms TreeTotal TreeMore NestThms BudgetThms ForestFacts ForestMore NestForest.
Import ListNotations.
Local Open Scope nat_scope.

(** ** One tree *)
Section One.
Context (M : math) (c : tcfg) (SV : tc_solver c = EXACT).
Section Loop.
Context (D : list (list Qc)) (L : list Qc) (FS I0 : list nat) (b0 b0' : option Z).
Lemma loop_keeps fuel : forall t e b' t1 e1 t2 e2, tinv M c D L FS I0 b0 t -> tinv M c D L FS I0 b0' (rebudget b' t) -> budget_le (t_budget t) b' ->
  fit_loop M c fuel t e = Ok (t1, e1) -> fit_loop M c fuel (rebudget b' t) e = Ok (t2, e2) ->
  ((exists b, t2 = rebudget b t1) /\ e2 = e1) \/ (exhausted (t_budget t1) = true /\ t_queries t1 <= t_queries t2).
Proof.
  induction fuel as [|fuel IH]; intros t e b' t1 e1 t2 e2 T T' LE H H'; cbn [fit_loop] in H, H'; cbn [rebudget t_leaves] in H'; apply rbind_ok in H; destruct H as [stop [EF H]]; rewrite EF in H'; cbn [rbind] in H'; destruct stop.
  - apply ok_pair_inv in H. destruct H as [<- <-]. apply ok_pair_inv in H'. destruct H' as [<- <-]. left. split; eauto.
  - discriminate H.
  - apply ok_pair_inv in H. destruct H as [<- <-]. apply ok_pair_inv in H'. destruct H' as [<- <-]. left. split; eauto.
  - apply rbind_ok in H. destruct H as [[[u1 f1] k1] [ES H]]. apply rbind_ok in H'. destruct H' as [[[u2 f2] k2] [ES' H']].
    destruct (scan_run _ _ _ _ _ _ _ ES) as [s SC]. destruct (scan_run _ _ _ _ _ _ _ ES') as [s' SC']. pose proof SC' as SC2. cbn [rebudget t_leaves] in SC2.
    destruct (scans_sim M c SV (combine (seq 0 (length (t_leaves t))) (t_leaves t)) {| sc_tree := t; sc_env := e; sc_best := None; sc_stop := false |} {| sc_tree := rebudget b' t; sc_env := e; sc_best := None; sc_stop := false |} s s') as [S|(S1 & S2 & S3)]; [exists b'; split; auto|exact SC|exact SC2| |].
    + destruct S as (b2 & ES2 & LE2). pose proof (finish_sim M c s t e _ b2 ES SC (rebudget b' t) s' SC' ES2) as FS2. rewrite ES' in FS2. cbn [fst snd] in FS2. apply ok_pair_inv in FS2. destruct FS2 as [FS2 ->]. apply pair_equal_spec in FS2. destruct FS2 as [-> ->].
      destruct (step_changes _ _ SV _ _ _ _ _ _ _ _ _ _ _ T SC ES) as (QB & _). destruct k1.
      * apply (IH u1 f1 b2 t1 e1 t2 e2); auto; [apply (fit_step_tinv _ _ _ _ _ _ _ _ _ _ _ _ T ES)|apply (fit_step_tinv _ _ _ _ _ _ _ _ _ _ _ _ T' ES')|rewrite QB; exact LE2].
      * apply ok_pair_inv in H. destruct H as [<- <-]. apply ok_pair_inv in H'. destruct H' as [<- <-]. left. split; eauto.
    + destruct (step_changes _ _ SV _ _ _ _ _ _ _ _ _ _ _ T SC ES) as (QB & QQ & B & C). destruct (step_changes _ _ SV _ _ _ _ _ _ _ _ _ _ _ T' SC' ES') as (QB' & QQ' & _).
      destruct (fit_step_tinv _ _ _ _ _ _ _ _ _ _ _ _ T ES) as (TU & _). destruct (fit_step_tinv _ _ _ _ _ _ _ _ _ _ _ _ T' ES') as (TU' & _).
      assert (X1 : exhausted (t_budget u1) = true) by now rewrite QB. right.
      assert (R4 : t_queries u2 <= t_queries t2). { destruct k2; [|apply ok_pair_inv in H'; destruct H' as [<- _]; auto]. apply (loop_tle _ _ _ _ _ _ _ _ _ _ _ _ TU' H'). }
      assert (R1 : t_queries t1 = t_queries u1 /\ t_budget t1 = t_budget u1). { destruct k1; [|apply ok_pair_inv in H; destruct H as [<- _]; auto]. destruct (exhausted_queries _ _ SV _ _ _ _ _ _ _ _ _ _ TU X1 H) as (-> & _ & ->). auto. }
      destruct R1 as [-> ->]. split; [exact X1|]. rewrite QQ. rewrite QQ' in R4. lia.
Qed.
End Loop.
Lemma tree_keeps P a e b b' t0 e0 t e1 t0' e0' t' e1' : train_rows a <> [] -> budget_le b b' ->
  tree_new P c (budgeted a b) e = Ok (t0, e0) -> tree_fit M c t0 (None, None) e0 = Ok (t, e1) -> tree_new P c (budgeted a b') e = Ok (t0', e0') -> tree_fit M c t0' (None, None) e0' = Ok (t', e1') ->
  t_budget t = less b (t_queries t) /\ t_queries t <= t_queries t' /\ (((exists x, t' = rebudget x t) /\ e1' = e1) \/ exhausted (t_budget t) = true).
Proof.
  intros NE LE N F N' F'. pose proof (new_budget P c a e b' b) as NB. rewrite N in NB. rewrite N' in NB. apply ok_pair_inv in NB. destruct NB as [-> ->].
  destruct (budget_course M c t0 e0 t e1 F) as [d K]. pose proof (K (t_budget t0)) as K0. rewrite rebudget_id in K0. rewrite K0 in F. replace (rebudget (t_budget t0) (start_tree t0 d)) with (start_tree t0 d) in F by reflexivity. rewrite (K b') in F'.
  destruct (start_inv M P c _ e t0 e0 d N NE) as [I S]. destruct (start_inv M P c _ e _ e0 d N' NE) as [I' S'].
  assert (TB : t_budget (start_tree t0 d) = b). { destruct (new_spec _ _ _ _ _ _ N) as (nd & e2 & _ & -> & _). reflexivity. }
  destruct (loop_tinv _ _ _ _ _ _ _ _ _ _ _ _ I F) as [T _]. pose proof (ti_budget _ _ _ _ _ _ _ _ T) as B. cbn [budgeted ta_budget] in B. split; [rewrite B; destruct b; reflexivity|].
  destruct (loop_keeps _ _ _ _ _ _ (Datatypes.S (leaf_rows (start_tree t0 d))) (start_tree t0 d) e0 b' t e1 t' e1' I I') as [[[x ->] ->]|[X Q]]; [rewrite TB; exact LE|exact F|exact F'| |].
  - cbn. split; auto. left. eauto.
  - auto.
Qed.
End One.

(** ** Forests in step *)
Lemma predict_rebudget tc t b x : tree_predict tc (rebudget b t) x = match tree_predict tc t x with Ok (p, t') => Ok (p, rebudget b t') | Err k => Err k end.
Proof.
  unfold tree_predict. cbn [rebudget t_nodes]. destruct (walk _ _ _ _) as [id|]; cbn [rbind]; auto. destruct (nth_res (t_nodes t) id) as [nd|]; cbn [rbind]; auto. destruct (tc_class tc).
  - destruct (nd_probs nd); [destruct (opt_res _ _); cbn [rbind]; auto|]. cbv zeta. destruct (argmax _); cbn [rbind]; auto. destruct (opt_res _ _); cbn [rbind]; auto. destruct (guard _ _); cbn [rbind]; auto.
  - destruct (nd_pval nd); auto. destruct (opt_res _ _); cbn [rbind]; auto. destruct (guard _ _); cbn [rbind]; auto.
Qed.
Lemma batch_rebudget tc b xs : forall t, tree_predict_batch tc (rebudget b t) xs = match tree_predict_batch tc t xs with Ok (ps, t') => Ok (ps, rebudget b t') | Err k => Err k end.
Proof.
  induction xs as [|x xs IH]; intros t; cbn [tree_predict_batch]; auto. rewrite predict_rebudget. destruct (tree_predict tc t x) as [[p t1]|]; cbn [rbind fst snd]; auto. rewrite IH. destruct (tree_predict_batch tc t1 xs) as [[ps t2]|]; cbn [rbind fst snd]; auto.
Qed.
Lemma boost_rebudget c i tc t b data rows r h : boost c i tc (rebudget b t) data rows r h = match boost c i tc t data rows r h with Ok (t', h') => Ok (rebudget b t', h') | Err k => Err k end.
Proof.
  unfold boost. destruct (take_idx data rows) as [rw|]; cbn [rbind]; auto. rewrite batch_rebudget. destruct (tree_predict_batch tc t rw) as [[ps t1]|]; cbn [rbind fst snd]; auto. destruct (preds_reg ps); cbn [rbind]; auto. destruct (opt_res _ _); cbn [rbind]; auto. cbv zeta.
  destruct (nth_res h r); cbn [rbind]; auto. destruct (take_idx _ _); cbn [rbind]; auto. destruct (mapM _ _); cbn [rbind]; auto. destruct (store _ _ _ _); cbn [rbind]; auto.
Qed.
Lemma predict_queries tc t x p t' : tree_predict tc t x = Ok (p, t') -> t_queries t' = t_queries t.
Proof.
  unfold tree_predict. intros H. apply rbind_ok in H. destruct H as [id [_ H]]. apply rbind_ok in H. destruct H as [nd [_ H]]. destruct (tc_class tc).
  - destruct (nd_probs nd); [apply rbind_ok in H; destruct H as [lb [_ H]]; apply ok_pair_inv in H; destruct H as [_ <-]; auto|]. cbv zeta in H. apply rbind_ok in H. destruct H as [k [_ H]]. apply rbind_ok in H. destruct H as [l [_ H]]. apply rbind_ok in H. destruct H as [g [_ H]]. apply ok_pair_inv in H. destruct H as [_ <-]. reflexivity.
  - destruct (nd_pval nd); [apply ok_pair_inv in H; destruct H as [_ <-]; auto|]. apply rbind_ok in H. destruct H as [k [_ H]]. apply rbind_ok in H. destruct H as [g [_ H]]. cbv zeta in H. apply ok_pair_inv in H. destruct H as [_ <-]. reflexivity.
Qed.
Lemma batch_queries tc xs : forall t ps t', tree_predict_batch tc t xs = Ok (ps, t') -> t_queries t' = t_queries t.
Proof.
  induction xs as [|x xs IH]; intros t ps t' H; cbn [tree_predict_batch] in H; [apply ok_pair_inv in H; destruct H as [_ <-]; auto|]. apply rbind_ok in H. destruct H as [[p t1] [E1 H]]. apply rbind_ok in H. destruct H as [[qs t2] [E2 H]]. cbn [fst snd] in *. apply ok_pair_inv in H. destruct H as [_ <-]. rewrite (IH _ _ _ E2). eapply predict_queries; eauto.
Qed.
Lemma boost_queries c i tc t data rows r h t' h' : boost c i tc t data rows r h = Ok (t', h') -> t_queries t' = t_queries t.
Proof.
  unfold boost. intros H. apply rbind_ok in H. destruct H as [rw [_ H]]. apply rbind_ok in H. destruct H as [[ps t1] [E H]]. repeat (apply rbind_ok in H; destruct H as [? [_ H]]; cbv zeta in H). cbn [snd] in H. apply ok_pair_inv in H. destruct H as [<- _]. eapply batch_queries; eauto.
Qed.

Lemma keep_le b b' q : budget_le b b' -> keep_tree b q = true -> keep_tree b' q = true.
Proof. destruct b, b'; cbn; try tauto; try discriminate. intros A H. apply andb_prop in H. destruct H as [H1 H2]. rewrite H1. cbn. apply Z.ltb_lt in H2. apply Z.ltb_lt. lia. Qed.
Lemma keep_none b q : keep_tree b q = false -> b <> None. Proof. now destruct b. Qed.

Section Forest.
Context (M : math) (P : prng) (c : fcfg) (data : list (list Qc)) (F : nat) (b0 : option Z) (q0 : nat).
Context (SV : fc_solver c = EXACT) (SR : some_rows c (length data)).
Definition twin (p p' : tcfg * tree) : Prop := fst p' = fst p /\ exists b, snd p' = rebudget b (snd p).
Definition fcopy (ts : list (tcfg * tree)) (b : option Z) (f : forest) : forest := upd_forest f ts b (f_queries f) (f_oob f) (f_gen f).
Definition acct (f : forest) : Prop := q0 <= f_queries f /\ f_budget f = less b0 (f_queries f - q0).
Record level (s s' : fstate) : Prop := {
  lv_same : exists ts b, s' = {| fs_f := fcopy ts b (fs_f s); fs_e := fs_e s; fs_h := fs_h s; fs_stop := fs_stop s |} /\ Forall2 twin (f_trees (fs_f s)) ts /\ budget_le (f_budget (fs_f s)) b;
  lv_acct : acct (fs_f s)
}.
Definition costs (q : nat) : Prop := match b0 with Some b => (b <= Z.of_nat (q - q0))%Z | None => False end.
(** Why the larger run may differ: it is limited, a tree of it costs nothing, or it costs as much as the smaller budget. *)
Definition over (f' : forest) : Prop := f_budget f' <> None \/ Exists (fun p => t_queries (snd p) = 0) (f_trees f') \/ costs (f_queries f').
(** The smaller budget is used up; the larger run is as far, or one tree behind because that tree cost too much. *)
Record ended (s s' : fstate) : Prop := {
  en_stop : fs_stop s = true \/ exhausted (f_budget (fs_f s)) = true;
  en_over : over (fs_f s');
  en_trees : exists cm cm' tl tl', f_trees (fs_f s) = cm ++ tl /\ f_trees (fs_f s') = cm' ++ tl' /\ Forall2 twin cm cm' /\
    ((tl = [] /\ f_queries (fs_f s) <= f_queries (fs_f s')) \/
     (exists p p' r, tl = [p] /\ tl' = p' :: r /\ fst p' = fst p /\ t_queries (snd p) <= t_queries (snd p') /\ f_queries (fs_f s) <= f_queries (fs_f s')) \/
     (exists p, tl = [p] /\ tl' = [] /\ fs_stop s' = true /\ lost P M p (fs_f s')))
}.
Lemma costs_le q q' : q <= q' -> costs q -> costs q'.
Proof. unfold costs. destruct b0; auto. lia. Qed.
Lemma exhausted_costs f q : acct f -> exhausted (less (f_budget f) q) = true -> costs (f_queries f + q).
Proof. unfold acct, costs. intros [A ->]. destruct b0 as [z|]; cbn; [|discriminate]. intros H. apply Z.leb_le in H. lia. Qed.
Lemma less0 b : less b 0 = b. Proof. destruct b; cbn; auto. f_equal. lia. Qed.
Lemma less_less b q r : less (less b q) r = less b (q + r). Proof. destruct b; cbn; auto. f_equal. lia. Qed.
(** One iteration, unfolded once. *)
Lemma step_shape s i s1 : fs_stop s = false -> fit_tree M P c data F s i = Ok s1 ->
  exists rows feats gen1, subset_draw c (length data) F (f_gen (fs_f s)) = Ok (rows, feats, gen1) /\
  ((exhausted (f_budget (fs_f s)) = true /\ s1 = {| fs_f := upd_forest (fs_f s) (f_trees (fs_f s)) (f_budget (fs_f s)) (f_queries (fs_f s)) (f_oob (fs_f s)) gen1; fs_e := fs_e s; fs_h := fs_h s; fs_stop := true |}) \/
   (exhausted (f_budget (fs_f s)) = false /\ exists orgr newr rows2 gen2 seed np' la t0 e0 t e1,
     f_org (fs_f s) = Some orgr /\ f_new (fs_f s) = Some newr /\ (if fc_bootstrap c then choice_repl rows (length data) gen1 else Ok (rows, gen1)) = Ok (rows2, gen2) /\ draw (e_np (fs_e s)) = (seed, np') /\
     nth_res (fs_h s) (if fc_class c then orgr else if fc_boosting c then newr else orgr) = Ok la /\
     let tc := tree_cfg c (f_classes (fs_f s)) (f_minmax (fs_f s)) in
     let ta b := {| ta_data := data; ta_labels := la_vals la; ta_budget := b; ta_dd := f_dd (fs_f s); ta_seed := seed; ta_idcs := Some rows2; ta_feats := Some feats |} in
     let oob := if fc_bootstrap c && fc_oob c then f_oob (fs_f s) ++ [get_out_of_bag rows2 (length data)] else f_oob (fs_f s) in
     tree_new P tc (ta (f_budget (fs_f s))) (set_np (fs_e s) np') = Ok (t0, e0) /\ tree_fit M tc t0 (None, None) e0 = Ok (t, e1) /\
     ((keep_tree (f_budget (fs_f s)) (t_queries t) = false /\ s1 = {| fs_f := upd_forest (fs_f s) (f_trees (fs_f s)) (f_budget (fs_f s)) (f_queries (fs_f s)) oob gen2; fs_e := e1; fs_h := fs_h s; fs_stop := true |}) \/
      (keep_tree (f_budget (fs_f s)) (t_queries t) = true /\ exists t2 h2, (if fc_boosting c then boost c i tc t data rows2 newr (fs_h s) else Ok (t, fs_h s)) = Ok (t2, h2) /\
        s1 = {| fs_f := upd_forest (fs_f s) (f_trees (fs_f s) ++ [(tc, t2)]) (less (f_budget (fs_f s)) (t_queries t2)) (f_queries (fs_f s) + t_queries t2) oob gen2; fs_e := e1; fs_h := h2; fs_stop := false |})))).
Proof.
  intros ST H. unfold fit_tree in H. rewrite ST in H. apply rbind_ok in H. destruct H as [[[rows feats] gen1] [E1 H]]. exists rows, feats, gen1. split; [exact E1|].
  change (match f_budget (fs_f s) with Some b => (b <=? 0)%Z | None => false end) with (exhausted (f_budget (fs_f s))) in H.
  destruct (exhausted (f_budget (fs_f s))); [left; split; auto; now apply ok_inv in H|right; split; auto].
  apply rbind_ok in H. destruct H as [orgr [E2 H]]. apply rbind_ok in H. destruct H as [newr [E3 H]]. apply rbind_ok in H. destruct H as [[rows2 gen2] [E4 H]]. cbv zeta in H.
  destruct (draw (e_np (fs_e s))) as [seed np'] eqn:ED. apply rbind_ok in H. destruct H as [la [E5 H]]. apply rbind_ok in H. destruct H as [[t0 e0] [E6 H]]. apply rbind_ok in H. destruct H as [[t e1] [E7 H]]. cbn [fst snd] in *.
  apply opt_res_ok in E2, E3. exists orgr, newr, rows2, gen2, seed, np', la, t0, e0, t, e1. ands; auto.
  destruct (keep_tree (f_budget (fs_f s)) (t_queries t)); cbn [negb] in H; [right|left]; split; auto; [|now apply ok_inv in H].
  apply rbind_ok in H. destruct H as [[t2 h2] [E8 H]]. apply rbind_ok in H. destruct H as [[] [_ H]]. apply ok_inv in H. exists t2, h2. split; auto.
Qed.
Lemma some_rows2 gen rows feats gen1 rows2 gen2 : subset_draw c (length data) F gen = Ok (rows, feats, gen1) -> (if fc_bootstrap c then choice_repl rows (length data) gen1 else Ok (rows, gen1)) = Ok (rows2, gen2) -> rows2 <> [].
Proof.
  intros ED EB. destruct (subset_draw_spec _ _ _ _ _ _ _ ED) as (_ & _ & D3 & _). destruct (fc_bootstrap c).
  - apply choice_repl_in in EB. destruct EB as [B1 B2]. destruct SR as [SR1 _]. intros ->. cbn in B1, B2. lia.
  - apply ok_pair_inv in EB. destruct EB as [<- _]. auto.
Qed.
Lemma tree_level s s' i s1 s1' : level s s' -> fit_tree M P c data F s i = Ok s1 -> fit_tree M P c data F s' i = Ok s1' -> level s1 s1' \/ ended s1 s1'.
Proof.
  intros [(ts & b' & -> & TW & LE) AC] H H'. destruct (fs_stop s) eqn:ST.
  { unfold fit_tree in H, H'. rewrite ST in H. cbn [fs_stop] in H'. apply ok_inv in H. apply ok_inv in H'. subst s1 s1'. left. split; auto. exists ts, b'. rewrite ST. auto. }
  destruct (step_shape _ _ _ ST H) as (rows & feats & gen1 & E1 & C). apply step_shape in H'; [|exact eq_refl]. destruct H' as (rows' & feats' & gen1' & E1' & C'). cbn [fs_f fcopy upd_forest f_gen] in E1'. rewrite E1 in E1'. apply ok_pair_inv in E1'. destruct E1' as [E1' <-]. apply pair_equal_spec in E1'. destruct E1' as [<- <-].
  cbn [fs_f fs_e fs_h fcopy upd_forest f_budget f_trees f_queries f_oob f_gen f_org f_new f_classes f_minmax f_dd] in C'.
  destruct C as [[X ->]|(X & orgr & newr & rows2 & gen2 & seed & np' & la & t0 & e0 & t & e1 & E2 & E3 & E4 & E5 & E6 & C)].
  - destruct C' as [[X' ->]|(X' & orgr' & newr' & rows2' & gen2' & seed' & np'' & la' & t0' & e0' & t' & e1' & E2' & E3' & E4' & E5' & E6' & C')].
    + left. split; [|exact AC]. exists ts, b'. split; [reflexivity|]. auto.
    + right. assert (CO : forall q, costs (f_queries (fs_f s) + q)). { intros q. apply (costs_le (f_queries (fs_f s) + 0)); [lia|]. apply exhausted_costs; auto. now rewrite less0. }
      cbv zeta in C'. destruct C' as (E7' & E8' & [[K' ->]|(K' & t2' & h2' & E9' & ->)]).
      * split; [left; reflexivity|right; right; cbn; specialize (CO 0); now rewrite Nat.add_0_r in CO|]. exists (f_trees (fs_f s)), ts, [], []. cbn. rewrite !app_nil_r. ands; auto.
      * split; [left; reflexivity|right; right; cbn; apply CO|]. exists (f_trees (fs_f s)), ts, [], [(tree_cfg c (f_classes (fs_f s)) (f_minmax (fs_f s)), t2')]. cbn. rewrite !app_nil_r. ands; auto. left. split; auto. lia.
  - destruct C' as [[X' ->]|(X' & orgr' & newr' & rows2' & gen2' & seed' & np'' & la' & t0' & e0' & t' & e1' & E2' & E3' & E4' & E5' & E6' & C')]; [rewrite (exhausted_le _ _ LE X') in X; discriminate|].
    rewrite E2 in E2'. injection E2' as <-. rewrite E3 in E3'. injection E3' as <-. rewrite E4 in E4'. apply ok_pair_inv in E4'. destruct E4' as [<- <-]. rewrite E5 in E5'. apply pair_equal_spec in E5'. destruct E5' as [<- <-]. rewrite E6 in E6'. apply ok_inv in E6'. subst la'.
    cbv zeta in C, C'. set (tc := tree_cfg c (f_classes (fs_f s)) (f_minmax (fs_f s))) in *. destruct C as (E7 & E8 & C). destruct C' as (E7' & E8' & C').
    set (oob := if fc_bootstrap c && fc_oob c then f_oob (fs_f s) ++ [get_out_of_bag rows2 (length data)] else f_oob (fs_f s)) in *.
    set (a := {| ta_data := data; ta_labels := la_vals la; ta_budget := None; ta_dd := f_dd (fs_f s); ta_seed := seed; ta_idcs := Some rows2; ta_feats := Some feats |}).
    pose proof (some_rows2 _ _ _ _ _ _ E1 E4) as NE.
    destruct (tree_keeps M tc SV P a (set_np (fs_e s) np') (f_budget (fs_f s)) b' t0 e0 t e1 t0' e0' t' e1' NE LE E7 E8 E7' E8') as (TB & QQ & SAME).
    (* what the larger run did *)
    assert (BIG : (s1' = {| fs_f := upd_forest (fcopy ts b' (fs_f s)) ts b' (f_queries (fs_f s)) oob gen2; fs_e := e1'; fs_h := fs_h s; fs_stop := true |} /\ b' <> None /\ keep_tree b' (t_queries t') = false) \/
      (exists t2' h2', (if fc_boosting c then boost c i tc t' data rows2 newr (fs_h s) else Ok (t', fs_h s)) = Ok (t2', h2') /\ t_queries t2' = t_queries t' /\
        s1' = {| fs_f := upd_forest (fcopy ts b' (fs_f s)) (ts ++ [(tc, t2')]) (less b' (t_queries t')) (f_queries (fs_f s) + t_queries t') oob gen2; fs_e := e1'; fs_h := h2'; fs_stop := false |})).
    { destruct C' as [[K' ->]|(K' & t2' & h2' & E9' & ->)]; [left; ands; auto; eapply keep_none; eauto|right]. assert (Q2 : t_queries t2' = t_queries t') by (destruct (fc_boosting c); [eapply boost_queries; eauto|apply ok_pair_inv in E9'; destruct E9' as [<- _]; auto]). exists t2', h2'. rewrite Q2. auto. }
    destruct C as [[K ->]|(K & t2 & h2 & E9 & ->)].
    + (* the smaller run drops the tree *)
      destruct BIG as [(-> & NB & K')|(t2' & h2' & E9' & Q2 & ->)].
      * right. split; [left; reflexivity|left; exact NB|]. exists (f_trees (fs_f s)), ts, [], []. cbn. rewrite !app_nil_r. ands; auto.
      * right. split; [left; reflexivity| |exists (f_trees (fs_f s)), ts, [], [(tc, t2')]; cbn; rewrite !app_nil_r; ands; auto; left; split; auto; lia].
        right. cbn [fs_f upd_forest f_trees f_queries]. destruct (Nat.eq_dec (t_queries t') 0) as [Z|NZ]; [left; apply Exists_app; right; constructor; cbn; lia|right].
        destruct SAME as [[[x ->] _]|XT].
        -- cbn [rebudget t_queries] in *. apply (exhausted_costs _ _ AC). clear - K NZ. destruct (f_budget (fs_f s)) as [z|]; cbn in *; [|discriminate]. apply Z.leb_le. apply andb_false_iff in K. destruct K as [K|K]; apply Z.ltb_ge in K; unfold buffer in *; lia.
        -- rewrite TB in XT. apply (costs_le (f_queries (fs_f s) + t_queries t)); [lia|]. apply (exhausted_costs _ _ AC). exact XT.
    + assert (Q2 : t_queries t2 = t_queries t) by (destruct (fc_boosting c); [eapply boost_queries; eauto|apply ok_pair_inv in E9; destruct E9 as [<- _]; auto]). rewrite Q2.
      destruct SAME as [[[x ->] ->]|XT].
      * (* the same tree *)
        cbn [rebudget t_queries] in *. pose proof (keep_le _ _ _ LE K) as K'.
        destruct BIG as [(-> & NB & K2)|(t2' & h2' & E9' & Q2' & ->)]; [congruence|]. left.
        assert (TH : t2' = rebudget x t2 /\ h2' = h2). { destruct (fc_boosting c); [rewrite boost_rebudget, E9 in E9'|apply ok_pair_inv in E9; destruct E9 as [<- <-]]; apply ok_pair_inv in E9'; destruct E9' as [<- <-]; auto. }
        destruct TH as [-> ->]. split.
        -- exists (ts ++ [(tc, rebudget x t2)]), (less b' (t_queries t)). split; [reflexivity|]. cbn [fs_f upd_forest f_trees f_budget]. split; [|now apply less_le]. apply Forall2_app; auto. constructor; [|constructor]. split; [reflexivity|]. exists x. reflexivity.
        -- destruct AC as [A1 A2]. split; cbn [fs_f upd_forest f_queries f_budget]; [lia|]. rewrite A2, less_less. f_equal. lia.
      * right. rewrite TB in XT. pose proof (exhausted_costs _ _ AC XT) as CO. destruct BIG as [(-> & NB & K2)|(t2' & h2' & E9' & Q2' & ->)].
        -- split; [right; exact XT|left; exact NB|]. exists (f_trees (fs_f s)), ts, [(tc, t2)], []. cbn [fs_f fs_stop upd_forest f_trees f_queries]. rewrite !app_nil_r. split; [reflexivity|]. split; [reflexivity|]. split; [exact TW|]. right. right. exists (tc, t2). split; auto. split; auto. split; auto.
           destruct b' as [r|]; [|congruence]. exists a, (set_np (fs_e s) np'), (f_budget (fs_f s)), r, t, t'. cbn [fst snd fs_f upd_forest f_budget]. split; [reflexivity|]. split; [exact LE|]. split; [exists t0, e0, e1; split; [exact E7|exact E8]|]. split; [exact Q2|]. split; [exists t0', e0', e1'; split; [exact E7'|exact E8']|]. split; [exact QQ|].
           clear - K K2 QQ XT. cbn in K2. apply andb_false_iff in K2. destruct (f_budget (fs_f s)) as [z|]; [|discriminate XT]. cbn in K. apply andb_prop in K. destruct K as [K _]. apply Z.ltb_lt in K. unfold buffer in *. destruct K2 as [K2|K2]; apply Z.ltb_ge in K2; lia.
        -- split; [right; exact XT|right; right; cbn; eapply costs_le; [|exact CO]; lia|]. exists (f_trees (fs_f s)), ts, [(tc, t2)], [(tc, t2')]. cbn. ands; auto. right. left. exists (tc, t2), (tc, t2'), []. ands; auto; cbn; lia.
Qed.
(** After the end nothing changes on the side of the smaller budget. *)
Lemma tree_ended s s' i s1 s1' : ended s s' -> fit_tree M P c data F s i = Ok s1 -> fit_tree M P c data F s' i = Ok s1' -> ended s1 s1'.
Proof.
  intros [ES EO (cm & cm' & tl & tl' & T1 & T2 & TW & TC)] H H'.
  assert (S1 : f_trees (fs_f s1) = f_trees (fs_f s) /\ f_queries (fs_f s1) = f_queries (fs_f s) /\ fs_stop s1 = true).
  { destruct (fs_stop s) eqn:ST; [unfold fit_tree in H; rewrite ST in H; apply ok_inv in H; now subst|]. destruct ES as [ES|ES]; [discriminate|]. destruct (step_shape _ _ _ ST H) as (rows & feats & gen1 & _ & [[_ ->]|[X _]]); [auto|congruence]. }
  destruct S1 as (S1 & S2 & S3).
  assert (S1' : (exists ts, f_trees (fs_f s1') = f_trees (fs_f s') ++ ts) /\ f_queries (fs_f s') <= f_queries (fs_f s1') /\ (f_budget (fs_f s') <> None -> f_budget (fs_f s1') <> None) /\ (fs_stop s' = true -> s1' = s')).
  { destruct (fs_stop s') eqn:ST; [unfold fit_tree in H'; rewrite ST in H'; apply ok_inv in H'; subst; ands; auto; exists []; now rewrite app_nil_r|].
    destruct (step_shape _ _ _ ST H') as (rows & feats & gen1 & _ & [[_ ->]|(_ & orgr & newr & rows2 & gen2 & seed & np' & la & t0 & e0 & t & e1 & _ & _ & _ & _ & _ & _ & _ & [[_ ->]|(_ & t2 & h2 & _ & ->)])]); cbn; ands; try discriminate; auto; try (exists []; now rewrite app_nil_r); try lia.
    - eauto.
    - destruct (f_budget (fs_f s')); cbn; congruence. }
  destruct S1' as ([ts TS] & QS & BS & FR). split; [left; exact S3| |].
  - destruct EO as [EO|[EO|EO]]; [left; auto|right; left; rewrite TS; apply Exists_app; auto|right; right; eapply costs_le; eauto].
  - exists cm, cm', tl, (tl' ++ ts). rewrite S1, TS, T2, app_assoc. split; [exact T1|]. split; [reflexivity|]. split; [exact TW|]. rewrite S2. destruct TC as [[-> Q]|[(p & p' & r & -> & -> & A1 & A2 & A3)|(p & -> & -> & A1 & A2)]].
    + left. split; auto. lia.
    + right. left. exists p, p', (r ++ ts). ands; auto. lia.
    + right. right. exists p. specialize (FR A1). subst s1'. assert (ts = []). { apply (f_equal (@length _)) in TS. rewrite app_length in TS. destruct ts; auto. cbn in TS. lia. } subst ts. ands; auto.
Qed.
Lemma runs_level l : forall s s' s1 s1', level s s' \/ ended s s' -> foldM (fit_tree M P c data F) s l = Ok s1 -> foldM (fit_tree M P c data F) s' l = Ok s1' -> level s1 s1' \/ ended s1 s1'.
Proof.
  induction l as [|i l IH]; intros s s' s1 s1' V H H'; cbn [foldM] in H, H'; [apply ok_inv in H; apply ok_inv in H'; subst; auto|].
  apply rbind_ok in H. destruct H as [y [E H]]. apply rbind_ok in H'. destruct H' as [y' [E' H']]. eapply IH; [|exact H|exact H']. destruct V as [V|V]; [eapply tree_level; eauto|right; eapply tree_ended; eauto].
Qed.
End Forest.

(** ** Whole fits *)
Lemma twin_same p p' : twin p p' -> same_member p p'.
Proof. intros [A [b B]]. split; auto. rewrite B. unfold same_but_budget. cbn. auto. Qed.
Section Fits.
Context (M : math) (P : prng) (c : fcfg) (f0 : forest) (arg : option (list (list Qc)) * option nat) (h : heap) (e : env) (b b' : option Z).
Context (SV : fc_solver c = EXACT) (SR : forall data, fit_data f0 arg = Some data -> some_rows c (length data)) (LE : budget_le b b').
Lemma fits_level f h1 e1 f' h2 e2 : forest_fit M P c (limited f0 b) arg h e = Ok (f, h1, e1) -> forest_fit M P c (limited f0 b') arg h e = Ok (f', h2, e2) ->
  exists s s', fs_f s = f /\ fs_h s = h1 /\ fs_e s = e1 /\ fs_f s' = f' /\ fs_h s' = h2 /\ fs_e s' = e2 /\ (level b (f_queries f0) s s' \/ ended M P b (f_queries f0) s s') /\ f_queries f0 <= f_queries f' /\ (b' = None -> f_budget f' = None /\ fs_stop s' = false).
Proof.
  intros H H'. unfold forest_fit in H, H'. cbn [limited upd_forest f_data f_org f_new f_classes f_ncl f_dd f_minmax f_budget f_queries f_oob f_mdg f_gen] in H, H'.
  apply rbind_ok in H. destruct H as [[[od org] new] [E1 H]]. rewrite E1 in H'. cbn [rbind] in H'. apply rbind_ok in H. destruct H as [data [E2 H]]. rewrite E2 in H'. cbn [rbind] in H'.
  apply rbind_ok in H. destruct H as [r0 [E3 H]]. rewrite E3 in H'. cbn [rbind] in H'. cbv zeta in H, H'.
  apply rbind_ok in H. destruct H as [[[org2 new2] h0] [E4 H]]. rewrite E4 in H'. cbn [rbind] in H'. apply rbind_ok in H. destruct H as [dd [E5 H]]. rewrite E5 in H'. cbn [rbind] in H'. apply rbind_ok in H. destruct H as [mm [E6 H]]. rewrite E6 in H'. cbn [rbind] in H'.
  apply rbind_ok in H. destruct H as [s [E7 H]]. apply rbind_ok in H'. destruct H' as [s' [E7' H']].
  apply ok_pair_inv in H. destruct H as [H <-]. apply pair_equal_spec in H. destruct H as [<- <-]. apply ok_pair_inv in H'. destruct H' as [H' <-]. apply pair_equal_spec in H'. destruct H' as [<- <-]. exists s, s'. split; auto. split; auto. split; auto. split; auto. split; auto. split; auto.
  assert (SD : some_rows c (length data)). { apply SR. apply opt_res_ok in E2. subst od. unfold fit_data. destruct arg as [[d|] [r|]]; cbn in *; try discriminate; apply ok_pair_inv in E1; destruct E1 as [E1 _]; apply pair_equal_spec in E1; destruct E1 as [-> _]; auto. }
  split.
  - eapply (runs_level M P c data (length r0) b (f_queries f0) SV SD); [|exact E7|exact E7']. left. split.
    + exists [], b'. cbn [fs_f fs_e fs_h fs_stop f_trees f_budget]. split; [reflexivity|]. split; [constructor|exact LE].
    + split; cbn; [lia|]. now rewrite Nat.sub_diag, less0.
  - split.
    + apply grew_trees in E7'; [|reflexivity]. apply E7'.
    + intros ->. assert (K : forall l s1 s2, f_budget (fs_f s1) = None -> fs_stop s1 = false -> foldM (fit_tree M P c data (length r0)) s1 l = Ok s2 -> f_budget (fs_f s2) = None /\ fs_stop s2 = false).
      { induction l as [|i l IH]; intros s1 s2 B S R; cbn [foldM] in R; [apply ok_inv in R; subst; auto|]. apply rbind_ok in R. destruct R as [s3 [R1 R]]. apply (IH s3 s2); auto.
        - destruct (step_shape M P c data (length r0) _ _ _ S R1) as (rows & feats & gen1 & _ & [[_ ->]|(_ & orgr & newr & rows2 & gen2 & seed & np' & la & t0 & e0 & t & e1 & _ & _ & _ & _ & _ & _ & _ & [[_ ->]|(_ & t2 & h3 & _ & ->)])]); cbn; auto. now rewrite B.
        - destruct (step_shape M P c data (length r0) _ _ _ S R1) as (rows & feats & gen1 & _ & [[X ->]|(_ & orgr & newr & rows2 & gen2 & seed & np' & la & t0 & e0 & t & e1 & _ & _ & _ & _ & _ & _ & _ & [[X ->]|(_ & t2 & h3 & _ & ->)])]); cbn; auto; rewrite B in X; discriminate. }
      eapply K; [| |exact E7']; reflexivity.
Qed.
Lemma twins_nth l l' i p : Forall2 twin l l' -> nth_error l i = Some p -> exists p', nth_error l' i = Some p' /\ twin p p'.
Proof. intros H. revert i. induction H as [|x y l l' X H IH]; intros [|i] E; cbn in *; try discriminate; [injection E as <-; eauto|eauto]. Qed.
Theorem larger_forest_budget f h1 e1 f' h2 e2 : forest_fit M P c (limited f0 b) arg h e = Ok (f, h1, e1) -> forest_fit M P c (limited f0 b') arg h e = Ok (f', h2, e2) ->
  (forall i p, S i < length (f_trees f) -> nth_error (f_trees f) i = Some p -> exists p', nth_error (f_trees f') i = Some p' /\ same_member p p') /\
  (forall i p p', S i = length (f_trees f) -> nth_error (f_trees f) i = Some p -> nth_error (f_trees f') i = Some p' -> fst p' = fst p /\ t_queries (snd p) <= t_queries (snd p')) /\
  (length (f_trees f) <= length (f_trees f') \/ (length (f_trees f) = S (length (f_trees f')) /\ exists p, nth_error (f_trees f) (length (f_trees f')) = Some p /\ lost P M p f')) /\
  (b' = None \/ length (f_trees f) <= length (f_trees f') -> length (f_trees f) <= length (f_trees f') /\ f_queries f <= f_queries f').
Proof.
  intros H H'. destruct (fits_level _ _ _ _ _ _ H H') as (s & s' & <- & _ & _ & <- & _ & _ & V & _ & NB).
  assert (Z : exists cm cm' tl tl', f_trees (fs_f s) = cm ++ tl /\ f_trees (fs_f s') = cm' ++ tl' /\ Forall2 twin cm cm' /\
    ((tl = [] /\ f_queries (fs_f s) <= f_queries (fs_f s')) \/
     (exists p p' r, tl = [p] /\ tl' = p' :: r /\ fst p' = fst p /\ t_queries (snd p) <= t_queries (snd p') /\ f_queries (fs_f s) <= f_queries (fs_f s')) \/
     (exists p, tl = [p] /\ tl' = [] /\ fs_stop s' = true /\ lost P M p (fs_f s')))).
  { destruct V as [[(ts & b1 & -> & TW & _) _]|[_ _ V]]; [|exact V]. exists (f_trees (fs_f s)), ts, [], []. cbn. rewrite !app_nil_r. ands; auto. }
  destruct Z as (cm & cm' & tl & tl' & -> & -> & TW & C). assert (LL : length cm = length cm') by (clear - TW; induction TW; cbn; congruence). rewrite !app_length.
  assert (TL : length tl <= 1) by (destruct C as [[-> _]|[(p & p' & r & -> & _)|(p & -> & _)]]; cbn; lia). split; [|split; [|split]].
  - intros i p I N. rewrite nth_error_app1 in N by lia. destruct (twins_nth _ _ _ _ TW N) as (p' & N' & T). exists p'. split; [|now apply twin_same]. rewrite nth_error_app1 by lia. exact N'.
  - intros i p p' I N N'. destruct C as [[-> _]|[(p1 & p1' & r & -> & -> & A1 & A2 & _)|(p1 & -> & -> & _)]]; cbn [length] in I.
    + rewrite app_nil_r in N. rewrite nth_error_app1 in N' by lia. destruct (twins_nth _ _ _ _ TW N) as (p2 & N2 & T). assert (p2 = p') by congruence. subst p2. destruct T as [T1 [x T2]]. rewrite T2. cbn. auto.
    + rewrite nth_error_app2 in N by lia. rewrite nth_error_app2 in N' by lia. replace (i - length cm) with 0 in N by lia. replace (i - length cm') with 0 in N' by lia. cbn in N, N'. assert (p1 = p) by congruence. assert (p1' = p') by congruence. subst. auto.
    + rewrite nth_error_app2 in N' by lia. destruct (i - length cm'); discriminate N'.
  - destruct C as [[-> _]|[(p & p' & r & -> & -> & _)|(p & -> & -> & _ & LS)]]; cbn; [left; lia|left; lia|right]. split; [lia|]. exists p. split; [|exact LS]. rewrite nth_error_app2 by lia. replace (length cm' + 0 - length cm) with 0 by lia. reflexivity.
  - intros D. destruct C as [[-> Q]|[(p & p' & r & -> & -> & _ & _ & Q)|(p & -> & -> & A1 & A2)]]; cbn in *; [split; auto; lia|split; auto; lia|].
    exfalso. destruct D as [D|D]; [destruct (NB D); congruence|lia].
Qed.
Theorem enough_forest_budget f h1 e1 f' h2 e2 : b' = None -> forest_fit M P c (limited f0 b) arg h e = Ok (f, h1, e1) -> forest_fit M P c (limited f0 b') arg h e = Ok (f', h2, e2) ->
  Forall (fun p => 0 < t_queries (snd p)) (f_trees f') -> pays_for b (f_queries f' - f_queries f0) ->
  Forall2 same_member (f_trees f) (f_trees f') /\ f_queries f = f_queries f' /\ f_oob f = f_oob f' /\ f_gen f = f_gen f' /\ h1 = h2 /\ e1 = e2.
Proof.
  intros BN H H' PO PF. destruct (fits_level _ _ _ _ _ _ H H') as (s & s' & <- & <- & <- & <- & <- & <- & V & _ & NB). destruct (NB BN) as [NB1 NB2]. destruct V as [[(ts & b1 & -> & TW & _) _]|V].
  - cbn. ands; auto. clear - TW. induction TW; constructor; auto. now apply twin_same.
  - exfalso. destruct (en_over _ _ _ _ _ _ V) as [O|[O|O]]; [congruence| |].
    + apply Exists_exists in O. destruct O as (p & I & Z). rewrite Forall_forall in PO. specialize (PO _ I). lia.
    + unfold costs in O. unfold pays_for in PF. destruct b; [lia|exact O].
Qed.
End Fits.
(** A tree that costs nothing ends every fit with a budget. *)
Theorem free_tree M P c f0 arg h e b f h1 e1 f' h2 e2 i p' : fc_solver c = EXACT -> (forall data, fit_data f0 arg = Some data -> some_rows c (length data)) ->
  forest_fit M P c (limited f0 (Some b)) arg h e = Ok (f, h1, e1) -> forest_fit M P c (limited f0 None) arg h e = Ok (f', h2, e2) ->
  nth_error (f_trees f') i = Some p' -> t_queries (snd p') = 0 -> length (f_trees f) <= i.
Proof.
  intros SV SR H H' N Z. destruct (larger_forest_budget M P c f0 arg h e (Some b) None SV SR I _ _ _ _ _ _ H H') as (A & B & _ & _).
  destruct (forest_budget _ _ _ _ _ _ _ _ _ _ b H eq_refl) as (_ & _ & _ & K & _). destruct (Nat.le_gt_cases (length (f_trees f)) i) as [L|L]; auto. exfalso.
  destruct (nth_error (f_trees f) i) as [p|] eqn:E; [|apply nth_error_None in E; lia]. pose proof (K p (nth_error_In _ _ E)) as K1. destruct (Nat.eq_dec (S i) (length (f_trees f))) as [D|D].
  - destruct (B i p p' D E N) as [_ Q]. lia.
  - destruct (A i p ltac:(lia) E) as (p2 & N2 & _ & _ & _ & Q & _). assert (p2 = p') by congruence. subst. lia.
Qed.

(** Growing a forest on a table with more or fewer columns. *)
From Coq Require Import List Arith Bool ZArith QArith Qcanon Lia Permutation Sorted.
From Verif Require Import Base Num Rng Histogram Utils Criteria Solvers Tree Forest Spec SolverSpec TreeSpec InvarSpec ForestSpec FInvarSpec ColSpec FColSpec NumFacts ListFacts HistFacts SampleFacts CountFacts TreeFacts TreeThms TreeTotal Repro NpStill ForestFacts ForestMore ForestTotal ForestRepro ForestMove ColSim ColThms.
Import ListNotations.
Local Open Scope nat_scope.

(** ** Lists *)
Lemma take_idx_rel {A B} (R : A -> B -> Prop) l l' I xs : Forall2 R l l' -> take_idx l I = Ok xs -> exists xs', take_idx l' I = Ok xs' /\ Forall2 R xs xs'.
Proof.
  intros F. unfold take_idx. revert xs. induction I as [|i I IH]; intros xs H; cbn [mapM] in *; [injection H as <-; eauto|].
  apply rbind_ok in H. destruct H as [x [E1 H]]. apply rbind_ok in H. destruct H as [ys [E2 H]]. injection H as <-. apply nth_res_ok in E1. destruct (Forall2_nth _ _ _ _ _ F E1) as [x' [E3 RX]].
  destruct (IH _ E2) as (ys' & E4 & F4). apply nth_res_ok in E3. rewrite E3. cbn [rbind]. rewrite E4. cbn [rbind]. eauto.
Qed.
Lemma mapM_rel {A B C} (R : A -> B -> Prop) (f : A -> res C) (g : B -> res C) xs xs' : Forall2 R xs xs' -> (forall x x', R x x' -> g x' = f x) -> mapM g xs' = mapM f xs.
Proof. intros F E. induction F as [|x x' xs xs' RX F IH]; cbn [mapM]; auto. now rewrite (E _ _ RX), IH. Qed.
Lemma col_cached phi c c' t t' t1 t1' : col_tree phi t t' -> cached_tree c t t1 -> cached_tree c' t' t1' -> col_tree phi t1 t1'.
Proof.
  intros [F ? ? ?] [E1 C1] [E2 C2]. rewrite E1, E2. constructor; cbn [set_nodes t_leaves t_queries t_splits t_depth t_budget t_nodes]; auto.
  clear - F C1 C2. revert t1' t1 C1 C2.
  assert (G : forall l l', Forall2 (col_node phi) l l' -> forall k k', Forall2 (cached c) l k -> Forall2 (cached c') l' k' -> Forall2 (col_node phi) k k').
  { clear. intros l l' F. induction F as [|nd nd' l l' N F IH]; intros k k' A B; inversion A; inversion B; subst; constructor; auto.
    match goal with H1 : cached c nd ?x, H2 : cached c' nd' ?y |- col_node phi ?x ?y => rewrite (ca_frame _ _ _ H1), (ca_frame _ _ _ H2) end. destruct N. constructor; cbn; auto. }
  intros t1' t1 C1 C2. eapply G; eauto.
Qed.
Lemma cached_uses c t t1 (good : nat -> Prop) : cached_tree c t t1 -> (forall nd k, In nd (t_nodes t1) -> nd_sf nd = Some k -> good k) -> forall nd k, In nd (t_nodes t) -> nd_sf nd = Some k -> good k.
Proof.
  intros [_ C] G nd k I E. apply In_nth_error in I. destruct I as [i I]. destruct (Forall2_nth _ _ _ _ _ C I) as [nd' [I' Q]]. apply (G nd' k); [eapply nth_error_In; eauto|]. rewrite (ca_frame _ _ _ Q). exact E.
Qed.

Section FCol.
Context (M : math) (P : prng) (c : fcfg) (phi : nat -> nat) (good : nat -> Prop) (R : list Qc -> list Qc -> Prop).

Definition good_tree (t : tree) : Prop := forall nd k, In nd (t_nodes t) -> nd_sf nd = Some k -> good k.

(** ** Boosting *)
Lemma boost_col tc a e t a' e' t' i data data' rows newr h t2 h2 : built P M tc a e t -> built P M tc a' e' t' -> train_rows a <> [] -> train_rows a' <> [] -> Forall2 R data data' ->
  (forall x x', R x x' -> answer (tree_predict tc t' x') = answer (tree_predict tc t x)) ->
  boost c i tc t data rows newr h = Ok (t2, h2) ->
  exists t2', boost c i tc t' data' rows newr h = Ok (t2', h2) /\ cached_tree tc t t2 /\ cached_tree tc t' t2'.
Proof.
  intros B B' NE NE' RD A H. unfold boost in *. apply rbind_ok in H. destruct H as [xs [E1 H]]. destruct (take_idx_rel R _ _ _ _ RD E1) as (xs' & E1' & RX). rewrite E1'. cbn [rbind].
  apply rbind_ok in H. destruct H as [[ps t3] [E2 H]]. cbn [fst snd] in H.
  destruct (batch_cached tc t xs t ps t3 (cached_self P M tc a e t B NE) E2) as [C MP].
  assert (MP' : mapM (fresh_answer tc t') xs' = Ok ps).
  { rewrite <- MP. apply (mapM_rel R); auto. intros x x' Q. rewrite <- (answer_fresh tc t' t' x' (cached_self P M tc a' e' t' B' NE')), <- (answer_fresh tc t t x (cached_self P M tc a e t B NE)). now apply A. }
  destruct (batch_from tc t' xs' t' ps (cached_self _ _ _ _ _ _ B' NE') MP') as (t3' & E2' & C'). rewrite E2'. cbn [rbind fst snd].
  apply rbind_ok in H. destruct H as [vs [E3 H]]. rewrite E3. cbn [rbind]. apply rbind_ok in H. destruct H as [lr [E4 H]]. rewrite E4. cbn [rbind]. cbv zeta in *.
  apply rbind_ok in H. destruct H as [la [E5 H]]. rewrite E5. cbn [rbind]. apply rbind_ok in H. destruct H as [old [E6 H]]. rewrite E6. cbn [rbind]. apply rbind_ok in H. destruct H as [ys [E7 H]]. rewrite E7. cbn [rbind].
  apply rbind_ok in H. destruct H as [h3 [E8 H]]. rewrite E8. cbn [rbind]. apply ok_pair_inv in H. destruct H as [<- <-]. eauto.
Qed.

(** ** One tree *)
Record ctwin (ct ct' : tcfg * tree) : Prop := {
  cw_cfg : fst ct' = fst ct;
  cw_tree : col_tree phi (snd ct) (snd ct');
  cw_ans : forall x x', R x x' -> answer (tree_predict (fst ct') (snd ct') x') = answer (tree_predict (fst ct) (snd ct) x);
  cw_batch : forall xs xs' ps t3, Forall2 R xs xs' -> tree_predict_batch (fst ct) (snd ct) xs = Ok (ps, t3) ->
    exists t3', tree_predict_batch (fst ct') (snd ct') xs' = Ok (ps, t3') /\ col_tree phi t3 t3'
}.
Lemma cached_ctwin tc a e t a' e' t' t2 t2' : built P M tc a e t -> built P M tc a' e' t' -> train_rows a <> [] -> train_rows a' <> [] -> col_tree phi t t' ->
  (forall x x', R x x' -> answer (tree_predict tc t' x') = answer (tree_predict tc t x)) ->
  cached_tree tc t t2 -> cached_tree tc t' t2' -> ctwin (tc, t2) (tc, t2').
Proof.
  intros B B' NE NE' SM AN Q2 Q3.
  assert (AF : forall x x', R x x' -> fresh_answer tc t' x' = fresh_answer tc t x).
  { intros x x' Q. rewrite <- (answer_fresh _ _ _ _ (cached_self _ _ _ _ _ _ B' NE')), <- (answer_fresh _ _ _ x (cached_self _ _ _ _ _ _ B NE)). now apply AN. }
  constructor; cbn [fst snd]; auto.
  - eapply col_cached; eauto.
  - intros x x' Q. rewrite (answer_fresh _ _ _ _ Q3), (answer_fresh _ _ _ _ Q2). now apply AF.
  - intros xs xs' ps t3 F H. destruct (batch_cached tc t xs t2 ps t3 Q2 H) as [C MP].
    destruct (batch_from tc t' xs' t2' ps Q3) as (t3' & E2' & C'); [|exists t3'; split; auto; eapply col_cached; eauto].
    rewrite <- MP. apply (mapM_rel R); auto.
Qed.
Lemma ctwins_same ts ts' : Forall2 ctwin ts ts' -> Forall2 (fun ct ct' => fst ct' = fst ct /\ col_tree phi (snd ct) (snd ct')) ts ts'.
Proof. induction 1 as [|ct ct' ts ts' [A B C D] H IH]; constructor; auto. Qed.
Lemma col_upd f f' ts ts' b q q' o gn : col_forest phi f f' -> Forall2 ctwin ts ts' -> col_forest phi (upd_forest f ts b q o gn) (upd_forest f' ts' b q' o gn).
Proof. intros [] F. constructor; cbn; auto. now apply ctwins_same. Qed.
Record fcols (z z' : fstate) : Prop := {
  fk_f : col_forest phi (fs_f z) (fs_f z');
  fk_trees : Forall2 ctwin (f_trees (fs_f z)) (f_trees (fs_f z'));
  fk_h : fs_h z' = fs_h z; fk_stop : fs_stop z' = fs_stop z; fk_np : e_np (fs_e z') = e_np (fs_e z)
}.

Context (data data' : list (list Qc)) (W W' : nat) (f0 : forest) (arg : option (list (list Qc)) * option nat) (h0 : heap) (f1 : forest) (h1 : heap) (org new : nat) (L : list Qc).
Context (NP : 1 <= length data) (WP : 1 <= W) (FB : fc_boosting c = true -> fc_class c = false /\ fc_lr c <> None).
Context (AL : qlt (fc_alpha_N c) 1%Qc || qlt (fc_alpha_F c) 1%Qc = false).
Context (SU : fit_setup c f0 arg h0 data W 0 f1 h1 org new L).
Context (FG : forest_fixed_grid c) (RD : Forall2 R data data') (MM1 : f_minmax f1 = None) (DD1 : f_dd f1 = None).
Notation targ d la seed rows w := {| ta_data := d; ta_labels := la; ta_budget := None; ta_dd := None; ta_seed := seed; ta_idcs := Some rows; ta_feats := Some (arange w) |}.
Context (HT : forall la rows seed e e' t, let tc := tree_cfg c (f_classes f1) None in
  trainable tc (targ data la seed rows W) W -> built P M tc (targ data la seed rows W) e t -> good_tree t ->
  exists t', built P M tc (targ data' la seed rows W') e' t' /\ col_tree phi t t' /\ forall x x', R x x' -> answer (tree_predict tc t' x') = answer (tree_predict tc t x)).
Notation rdy := (ready c data f1 h1 new).

Lemma DR0 : qlt (fc_alpha_N c) 1%Qc || qlt (fc_alpha_F c) 1%Qc = true -> (1 <= ztrunc (Nq (length data) * fc_alpha_N c)%Qc <= Z.of_nat (length data))%Z /\ (1 <= ztrunc (Nq W * fc_alpha_F c)%Qc <= Z.of_nat W)%Z.
Proof. rewrite AL. discriminate. Qed.
Definition good_trees (f : forest) : Prop := forall ct, In ct (f_trees f) -> good_tree (snd ct).

Lemma fit_tree_col z z' i z1 : fcols z z' -> rdy z -> f_budget (fs_f z) = None -> fit_tree M P c data W z i = Ok z1 -> good_trees (fs_f z1) ->
  exists z1', fit_tree M P c data' W' z' i = Ok z1' /\ fcols z1 z1' /\ f_budget (fs_f z1) = None.
Proof.
  intros S RY BU H GT. pose proof S as [F1 F2 F3 F4 F5]. unfold fit_tree in *. rewrite F4. destruct (fs_stop z) eqn:ST; [apply ok_inv in H; subst z1; exists z'; split; auto|].
  rewrite <- (Forall2_len _ _ _ RD). unfold subset_draw in *. rewrite AL in *. cbn [rbind] in *.
  rewrite (cf_gen _ _ _ F1), (cf_budget _ _ _ F1), (cf_org _ _ _ F1), (cf_new _ _ _ F1), (cf_oob _ _ _ F1), (cf_dd _ _ _ F1), (cf_classes _ _ _ F1), (cf_minmax _ _ _ F1), F3, F5. rewrite BU in *.
  apply rbind_ok in H. destruct H as [orgr [E2 H]]. rewrite E2. cbn [rbind]. apply rbind_ok in H. destruct H as [newr [E3 H]]. rewrite E3. cbn [rbind].
  apply rbind_ok in H. destruct H as [[rows2 gen2] [E4 H]]. rewrite E4. cbn [rbind]. destruct (draw (e_np (fs_e z))) as [seed np'] eqn:ED.
  apply rbind_ok in H. destruct H as [la [E5 H]]. rewrite E5. cbn [rbind]. cbv zeta in *.
  apply rbind_ok in H. destruct H as [[t e1] [E6 H]]. cbn [fst snd] in H. apply rbind_ok in H. destruct H as [[t1 e2] [E7 H]].
  apply opt_res_ok in E2. apply opt_res_ok in E3.
  assert (SD : subset_draw c (length data) W (f_gen (fs_f z)) = Ok (arange (length data), arange W, f_gen (fs_f z))) by (unfold subset_draw; rewrite AL; reflexivity).
  pose proof (ready_good c data W 0 f0 arg h0 f1 h1 org new L NP WP FB DR0 SU z _ _ _ rows2 gen2 orgr newr la seed RY SD E2 E3 E4 E5) as (TC & TR & _). rewrite BU in TR.
  assert (CL : f_classes (fs_f z) = f_classes f1 /\ f_minmax (fs_f z) = None /\ f_dd (fs_f z) = None) by (destruct RY as ((ts & b & q & o & gg & FR) & _); rewrite FR; cbn; auto).
  destruct CL as (CL & CM & CD). rewrite CL, CM, CD in *.
  set (a := targ data (la_vals la) seed rows2 W) in *. set (tc := tree_cfg c (f_classes f1) None) in *.
  assert (B : built P M tc a (set_np (fs_e z) np') t1) by (exists t, e1, e2; auto).
  cbn [keep_tree negb] in *. apply rbind_ok in H. destruct H as [[t2 h2] [E8 H]]. cbn [guard rbind] in *. apply ok_inv in H. subst z1. cbn [fs_f upd_forest f_budget].
  pose proof (tr_rows _ _ _ TR) as NE.
  assert (CT : cached_tree tc t1 t2).
  { destruct (fc_boosting c).
    - unfold boost in E8. apply rbind_ok in E8. destruct E8 as [xs [_ E8]]. apply rbind_ok in E8. destruct E8 as [[ps t3] [E9 E8]]. cbn [fst snd] in E8. 
      repeat (apply rbind_ok in E8; destruct E8 as [? [_ E8]]). apply ok_pair_inv in E8. destruct E8 as [<- _]. now destruct (batch_cached tc t1 xs t1 ps t3 (cached_self P M tc a _ t1 B NE) E9).
    - apply ok_pair_inv in E8. destruct E8 as [<- _]. eapply cached_self; eauto. }
  assert (G1 : good_tree t1).
  { intros nd k. eapply (cached_uses tc t1 t2); eauto. apply (GT (tc, t2)). cbn. apply in_or_app. right. now left. }
  destruct (HT (la_vals la) rows2 seed (set_np (fs_e z) np') (set_np (fs_e z') np') t1 TR B G1) as (t1' & B' & SM & AN). fold tc in B', AN.
  set (a' := targ data' (la_vals la) seed rows2 W') in *.
  pose proof B' as (t0' & e1' & e2' & E6' & E7'). rewrite E6'. cbn [rbind fst snd]. rewrite E7'. cbn [rbind].
  destruct FG as [EX BT]. assert (BT1 : tc_bin tc = LINEAR \/ tc_bin tc = IDENTITY) by (cbn; tauto).
  assert (NQ : e_np e2' = e_np e2).
  { rewrite (tree_np M tc EX BT1 P _ _ _ _ _ _ E6' E7'). symmetry. exact (tree_np M tc EX BT1 P _ _ _ _ _ _ E6 E7). }
  assert (NE' : train_rows a' <> []) by exact NE.
  assert (BB : exists t2', (if fc_boosting c then boost c i tc t1' data' rows2 newr (fs_h z) else Ok (t1', fs_h z)) = Ok (t2', h2) /\ ctwin (tc, t2) (tc, t2')).
  { destruct (fc_boosting c).
    - destruct (boost_col tc a _ t1 _ _ t1' i data data' rows2 newr (fs_h z) t2 h2 B B' NE NE' RD AN E8) as (t2' & Q1 & Q2 & Q3). exists t2'. split; auto. eapply cached_ctwin with (t := t1) (t' := t1'); eauto.
    - apply ok_pair_inv in E8. destruct E8 as [<- <-]. exists t1'. split; auto. eapply cached_ctwin with (t := t1) (t' := t1'); eauto; eapply cached_self; eauto. }
  destruct BB as (t2' & Q1 & Q2). rewrite Q1. cbn [rbind]. eexists. split; [reflexivity|]. split; auto.
  constructor; cbn [fs_f fs_e fs_h fs_stop]; auto.
  - apply col_upd; auto. apply Forall2_app; auto.
  - cbn [upd_forest f_trees]. apply Forall2_app; auto.
Qed.
Lemma fit_tree_keeps d w z i z1 : fit_tree M P c d w z i = Ok z1 -> exists l, f_trees (fs_f z1) = f_trees (fs_f z) ++ l.
Proof.
  unfold fit_tree. destruct (fs_stop z); [intros H; apply ok_inv in H; subst z1; exists []; now rewrite app_nil_r|]. intros H.
  apply rbind_ok in H. destruct H as [[[rows feats] gen1] [E1 H]]. destruct (match f_budget (fs_f z) with Some b => (b <=? 0)%Z | None => false end).
  { apply ok_inv in H. subst z1. exists []. cbn. now rewrite app_nil_r. }
  apply rbind_ok in H. destruct H as [orgr [E2 H]]. apply rbind_ok in H. destruct H as [newr [E3 H]]. apply rbind_ok in H. destruct H as [[rows2 gen2] [E4 H]]. destruct (draw (e_np (fs_e z))) as [seed np'].
  apply rbind_ok in H. destruct H as [la [E5 H]]. cbv zeta in *. apply rbind_ok in H. destruct H as [[t e1] [E6 H]]. apply rbind_ok in H. destruct H as [[t1 e2] [E7 H]].
  destruct (negb (keep_tree (f_budget (fs_f z)) (t_queries t1))).
  { apply ok_inv in H. subst z1. exists []. cbn. now rewrite app_nil_r. }
  apply rbind_ok in H. destruct H as [[t2 h2] [E8 H]]. apply rbind_ok in H. destruct H as [un [E9 H]]. apply ok_inv in H. subst z1. cbn. eauto.
Qed.
Lemma trees_keep d w l : forall z z1, foldM (fit_tree M P c d w) z l = Ok z1 -> exists k, f_trees (fs_f z1) = f_trees (fs_f z) ++ k.
Proof.
  induction l as [|i l IH]; intros z z1 H; cbn [foldM] in H; [apply ok_inv in H; subst z1; exists []; now rewrite app_nil_r|].
  apply rbind_ok in H. destruct H as [z2 [E H]]. destruct (fit_tree_keeps _ _ _ _ _ E) as [k1 K1]. destruct (IH _ _ H) as [k2 K2]. exists (k1 ++ k2). now rewrite K2, K1, app_assoc.
Qed.
Lemma trees_col l : forall z z' z1, fcols z z' -> rdy z -> f_budget (fs_f z) = None -> foldM (fit_tree M P c data W) z l = Ok z1 -> good_trees (fs_f z1) -> exists z1', foldM (fit_tree M P c data' W') z' l = Ok z1' /\ fcols z1 z1'.
Proof.
  induction l as [|i l IH]; intros z z' z1 S RY BU H GT; cbn [foldM] in *; [apply ok_inv in H; subst z1; eauto|].
  apply rbind_ok in H. destruct H as [z2 [E H]].
  assert (G2 : good_trees (fs_f z2)).
  { intros ct I. apply GT. destruct (trees_keep _ _ _ _ _ H) as [k K]. rewrite K. apply in_or_app. now left. }
  destruct (fit_tree_col _ _ _ _ S RY BU E G2) as (z2' & E' & S2 & B2). rewrite E'. cbn [rbind]. apply (IH z2); auto. revert E. eapply ready_step; eauto.
Qed.
End FCol.

(** ** A whole fit *)
Lemma alphas c : (1 <= fc_alpha_N c)%Qc -> (1 <= fc_alpha_F c)%Qc -> qlt (fc_alpha_N c) 1%Qc || qlt (fc_alpha_F c) 1%Qc = false.
Proof. intros A B. apply orb_false_iff. split; apply qlt_false; auto. Qed.

Lemma cols_forest M P c phi good R f f' arg arg' data data' W W' h e e' f1 h1 e1 : forest_trainable c f arg h data W -> forest_columns c f -> same_call f f' arg arg' data' ->
  Forall2 R data data' -> (forall x x', R x x' -> length x = W -> length x' = W') ->
  (forall la rows seed e e' t, let tc := tree_cfg c (f_classes f) None in
     let a := {| ta_data := data; ta_labels := la; ta_budget := None; ta_dd := None; ta_seed := seed; ta_idcs := Some rows; ta_feats := Some (arange W) |} in
     let a' := {| ta_data := data'; ta_labels := la; ta_budget := None; ta_dd := None; ta_seed := seed; ta_idcs := Some rows; ta_feats := Some (arange W') |} in
     trainable tc a W -> built P M tc a e t -> good_tree good t -> exists t', built P M tc a' e' t' /\ col_tree phi t t' /\ forall x x', R x x' -> answer (tree_predict tc t' x') = answer (tree_predict tc t x)) ->
  e_np e' = e_np e -> forest_fit M P c f arg h e = Ok (f1, h1, e1) -> good_trees good f1 ->
  exists f1' e1', forest_fit M P c f' arg' h e' = Ok (f1', h1, e1') /\ e_np e1' = e_np e1 /\ col_forest phi f1 f1' /\ Forall2 (ctwin phi R) (f_trees f1) (f_trees f1') /\ f_data f1 = Some data /\ f_data f1' = Some data'.
Proof.
  intros T (FG & FS & PM & AN & AF & FM & FD & FU) [SS SC] RD WW HT NQ H GT. pose proof (ft_labels _ _ _ _ _ _ T) as (r & n & la & lb & L1 & L2 & L3 & L4 & L5 & L6 & L7).
  destruct (forest_setup c f arg h data W la 0 T (ex_intro _ r (conj L1 L3))) as (fs & hs & org & new & SU).
  pose proof SU as [S1 S2 S3 S4 S5 S6 (r' & n' & dd & mm & A & HH & DD & MM & F1)]. rewrite S1 in H. apply rbind_ok in H. destruct H as [z [H HZ]].
  assert (NE : exists r0, nth_res data' 0 = Ok r0 /\ length r0 = W').
  { destruct (nth_res_lt data 0 (ft_rows _ _ _ _ _ _ T)) as [r0 E]. apply nth_res_ok in E. destruct (Forall2_nth _ _ _ _ _ RD E) as (r1 & E1 & Q). exists r1. split; [now apply nth_res_ok|]. apply (WW _ _ Q). apply (ft_rect _ _ _ _ _ _ T). eapply nth_error_In; eauto. }
  destruct NE as (r0 & ER & LR).
  assert (A' : match arg' with (None, None) => Ok (f_data f', f_org f', f_new f') | (Some d, Some r) => Ok (Some d, Some r, Some r) | _ => Err GenericException end = Ok (Some data', Some r', Some n')).
  { destruct SC as [(-> & -> & E)|(d & q & -> & ->)].
    - rewrite E, (ss_org _ _ SS), (ss_new _ _ SS). congruence.
    - congruence. }
  assert (DD' : match fc_bin c with LINEAR | IDENTITY => false | _ => fc_make_discrete c end = false) by (destruct FG as [_ [->|[-> _]]]; reflexivity).
  rewrite DD' in DD. rewrite PM in MM.
  set (fs' := {| f_data := Some data'; f_org := Some org; f_new := Some new; f_trees := []; f_classes := f_classes f'; f_ncl := f_ncl f'; f_dd := f_dd f'; f_minmax := f_minmax f';
     f_budget := f_budget f'; f_queries := f_queries f'; f_oob := if fc_oob c then [] else f_oob f'; f_mdg := f_mdg f'; f_gen := f_gen f' |}).
  assert (RUN : forest_fit M P c f' arg' h e' = do z <- foldM (fit_tree M P c data' W') {| fs_f := fs'; fs_e := e'; fs_h := hs; fs_stop := false |} (seq 0 (fc_n c)); Ok (fs_f z, fs_h z, fs_e z)).
  { unfold forest_fit. rewrite A'. cbn [rbind opt_res]. rewrite ER. cbn [rbind]. rewrite LR, HH. cbn [rbind]. cbv zeta. rewrite DD', PM. cbn [rbind]. reflexivity. }
  assert (CF : col_forest phi fs fs').
  { destruct SS. rewrite F1. constructor; cbn; auto; try congruence; try constructor. destruct (fc_oob c); auto. }
  assert (FD1 : forall d w l z0 z1, foldM (fit_tree M P c d w) z0 l = Ok z1 -> f_data (fs_f z1) = f_data (fs_f z0)).
  { clear. intros d w l. induction l as [|i l IH]; intros z0 z1 H; cbn [foldM] in H; [apply ok_inv in H; now subst z1|]. apply rbind_ok in H. destruct H as [z2 [E H]]. rewrite (IH _ _ H). clear H IH.
    unfold fit_tree in E. destruct (fs_stop z0); [apply ok_inv in E; now subst z2|]. apply rbind_ok in E. destruct E as [[[rows feats] gen1] [E1 H]]. destruct (match f_budget (fs_f z0) with Some b => (b <=? 0)%Z | None => false end).
    { apply ok_inv in H. subst z2. reflexivity. }
    apply rbind_ok in H. destruct H as [orgr [E2 H]]. apply rbind_ok in H. destruct H as [newr [E3 H]]. apply rbind_ok in H. destruct H as [[rows2 gen2] [E4 H]]. destruct (draw (e_np (fs_e z0))) as [seed np'].
    apply rbind_ok in H. destruct H as [la [E5 H]]. cbv zeta in *. apply rbind_ok in H. destruct H as [[t e1] [E6 H]]. apply rbind_ok in H. destruct H as [[t1 e2] [E7 H]].
    destruct (negb (keep_tree (f_budget (fs_f z0)) (t_queries t1))).
    { apply ok_inv in H. subst z2. reflexivity. }
    apply rbind_ok in H. destruct H as [[t2 h2] [E8 H]]. apply rbind_ok in H. destruct H as [un [E9 H]]. apply ok_inv in H. subst z2. reflexivity. }
  apply ok_inv in HZ. apply pair_equal_spec in HZ. destruct HZ as [HZ <-]. apply pair_equal_spec in HZ. destruct HZ as [<- <-].
  destruct (trees_col M P c phi good R data data' W W' f arg h fs hs org new _ (ft_rows _ _ _ _ _ _ T) (ft_cols _ _ _ _ _ _ T) (ft_boost _ _ _ _ _ _ T) (alphas c AN AF) SU FG RD) with (z := {| fs_f := fs; fs_e := e; fs_h := hs; fs_stop := false |}) (z' := {| fs_f := fs'; fs_e := e'; fs_h := hs; fs_stop := false |}) (l := seq 0 (fc_n c)) (z1 := z) as (z' & E' & [Z1 Z2 Z3 Z4 Z5]); auto.
  - rewrite F1. cbn. congruence.
  - rewrite F1. cbn. congruence.
  - rewrite F1. cbn [f_classes]. exact HT.
  - constructor; cbn [fs_f fs_e fs_h fs_stop]; auto. rewrite F1. constructor.
  - split; [|split; [|split]]; auto. cbn [fs_f]. exists (f_trees fs), (f_budget fs), (f_queries fs), (f_oob fs), (f_gen fs). now destruct fs.
  - cbn [fs_f]. rewrite F1. exact FU.
  - exists (fs_f z'), (fs_e z'). rewrite RUN, E'. cbn [rbind]. rewrite Z3. split; auto. split; auto. split; auto. split; auto. rewrite (FD1 _ _ _ _ _ H), (FD1 _ _ _ _ _ E'). cbn [fs_f]. rewrite F1. auto.
Qed.

(** ** Using the forest *)
Section Use.
Context (phi : nat -> nat) (R : list Qc -> list Qc -> Prop).
Notation twins := (Forall2 (ctwin phi R)).
Lemma cols_predict_trees ts ts' x x' : twins ts ts' -> R x x' -> answer (trees_predict ts' x') = answer (trees_predict ts x).
Proof.
  intros F RX. induction F as [|[tc t] [tc' t'] ts ts' TW F IH]; [reflexivity|]. cbn [trees_predict]. pose proof (cw_ans _ _ _ _ TW x x' RX) as A. cbn [fst snd] in A.
  destruct (tree_predict tc t x) as [[p t1]|er]; destruct (tree_predict tc' t' x') as [[p' t1']|er']; cbn [answer rbind] in *; try discriminate A; [|congruence]. injection A as ->.
  destruct (trees_predict ts x) as [[ps ts1]|er]; destruct (trees_predict ts' x') as [[ps' ts1']|er']; cbn [answer rbind fst snd map] in *; congruence.
Qed.
Lemma cols_predict c f f' x x' : col_forest phi f f' -> twins (f_trees f) (f_trees f') -> R x x' -> answer (forest_predict c f' x') = answer (forest_predict c f x).
Proof. intros CF F RX. now rewrite !forest_answer_trees, (cols_predict_trees _ _ _ _ F RX), (cf_ncl _ _ _ CF), (cf_classes _ _ _ CF). Qed.

Lemma cols_oob_acc cl data data' : Forall2 R data data' -> forall ts ts' oob acc acc1 ts1, twins ts ts' -> oob_accumulate cl data ts oob acc = Ok (acc1, ts1) ->
  exists ts1', oob_accumulate cl data' ts' oob acc = Ok (acc1, ts1') /\ Forall2 (fun ct ct' => fst ct' = fst ct /\ col_tree phi (snd ct) (snd ct')) ts1 ts1'.
Proof.
  intros RD ts ts' oob acc acc1 ts1 F. revert oob acc acc1 ts1. induction F as [|[tc t] [tc' t'] ts ts' TW F IH]; intros oob acc acc1 ts1 H; cbn [oob_accumulate] in *.
  - apply ok_pair_inv in H. destruct H as [<- <-]. eauto.
  - apply rbind_ok in H. destruct H as [idcs [E1 H]]. rewrite E1. cbn [rbind]. apply rbind_ok in H. destruct H as [un [E2 H]]. rewrite E2. cbn [rbind].
    apply rbind_ok in H. destruct H as [rows [E3 H]]. destruct (take_idx_rel R _ _ _ _ RD E3) as (rows' & E3' & RR). rewrite E3'. cbn [rbind]. apply rbind_ok in H. destruct H as [[ps t2] [E4 H]]. cbn [fst snd] in H.
    destruct (cw_batch _ _ _ _ TW rows rows' ps t2 RR E4) as (t2' & E4' & ST). cbn [fst snd] in E4'. rewrite E4'. cbn [rbind fst snd]. apply rbind_ok in H. destruct H as [prs [E5 H]]. rewrite E5. cbn [rbind].
    apply rbind_ok in H. destruct H as [[acc2 ts2] [E6 H]]. cbn [fst snd] in H. apply ok_pair_inv in H. destruct H as [<- <-].
    destruct (IH _ _ _ _ E6) as (ts1' & E6' & FF). rewrite E6'. cbn [rbind fst snd]. eexists. split; [reflexivity|]. constructor; auto. cbn [fst snd]. split; auto. exact (cw_cfg _ _ _ _ TW).
Qed.
Lemma cols_oob c f f' h data data' sc f2 : col_forest phi f f' -> twins (f_trees f) (f_trees f') -> f_data f = Some data -> f_data f' = Some data' -> Forall2 R data data' -> get_oob_score c f h None = Ok (sc, f2) ->
  exists f2', get_oob_score c f' h None = Ok (sc, f2') /\ col_forest phi f2 f2'.
Proof.
  intros CF F D1 D2 RD H. unfold get_oob_score in *. rewrite D1 in H. rewrite D2. cbn [opt_res rbind] in *. rewrite (cf_org _ _ _ CF), (cf_classes _ _ _ CF), (cf_oob _ _ _ CF).
  apply rbind_ok in H. destruct H as [r [E2 H]]. rewrite E2. cbn [rbind]. apply rbind_ok in H. destruct H as [la [E3 H]]. rewrite E3. cbn [rbind]. cbv zeta in *.
  apply rbind_ok in H. destruct H as [[acc ts] [E4 H]]. destruct (cols_oob_acc _ _ _ RD _ _ _ _ _ _ F E4) as (ts' & E4' & FF). rewrite E4'. cbn [rbind].
  assert (SF : col_forest phi (set_trees f ts) (set_trees f' ts')) by (unfold set_trees; destruct CF; constructor; cbn; auto).
  destruct (fc_class c).
  - apply rbind_ok in H. destruct H as [hits [E5 H]]. rewrite E5. cbn [rbind]. apply ok_pair_inv in H. destruct H as [<- <-]. eauto.
  - apply ok_pair_inv in H. destruct H as [<- <-]. eauto.
Qed.
End Use.

(** ** Importances *)
Section Mdi.
Context (phi : nat -> nat) (good : nat -> Prop) (W W' : nat).
Context (PW : forall k, good k -> k < W -> phi k < W') (INJ : forall k j, good k -> good j -> k < W -> j < W -> phi k = phi j -> k = j).
(** The importances of the columns both tables have are the same, those of other columns are 0. *)
Record imp (arr arr' : list xn) : Prop := {
  im_len : length arr = W; im_len' : length arr' = W';
  im_same : forall k, good k -> k < W -> nth_error arr' (phi k) = nth_error arr k;
  im_old : forall k, k < W -> ~ good k -> nth_error arr k = Some (Fin 0%Qc);
  im_new : forall j, j < W' -> (forall k, good k -> k < W -> phi k <> j) -> nth_error arr' j = Some (Fin 0%Qc)
}.
Lemma add_imp arr arr' k v arr1 : imp arr arr' -> good k -> add_at arr k v = Ok arr1 -> exists arr1', add_at arr' (phi k) v = Ok arr1' /\ imp arr1 arr1'.
Proof.
  intros [L1 L2 S1 S2 S3] G H. unfold add_at in *. apply rbind_ok in H. destruct H as [x [E H]]. injection H as <-. apply nth_res_ok in E. assert (KW : k < W) by (rewrite <- L1; apply nth_error_Some; congruence).
  assert (E' : nth_res arr' (phi k) = Ok x) by (apply nth_res_ok; now rewrite S1). rewrite E'. cbn [rbind]. eexists. split; [reflexivity|].
  constructor; rewrite ?set_nth_length; auto.
  - intros j GJ JW. rewrite !set_nth_nth. apply nth_res_ok in E'. rewrite E, E'. destruct (Nat.eqb_spec j k) as [->|N]; [now rewrite Nat.eqb_refl|]. destruct (Nat.eqb_spec (phi j) (phi k)) as [Q|_]; [exfalso; apply N; auto|auto].
  - intros j JW NG. rewrite set_nth_nth. destruct (Nat.eqb_spec j k) as [->|N]; [contradiction|auto].
  - intros j JW NG. rewrite set_nth_nth. destruct (Nat.eqb_spec j (phi k)) as [->|N]; [exfalso; now apply (NG k G KW)|auto].
Qed.
Lemma mdi_imp ns ns' : Forall2 (col_node phi) ns ns' -> (forall nd k, In nd ns -> nd_sf nd = Some k -> good k) -> forall fuel id arr arr' arr1, imp arr arr' -> mdi_helper ns fuel id arr = Ok arr1 ->
  exists arr1', mdi_helper ns' fuel id arr' = Ok arr1' /\ imp arr1 arr1'.
Proof.
  intros F G. induction fuel as [|fuel IH]; intros id arr arr' arr1 S H; cbn [mdi_helper] in *.
  - apply rbind_ok in H. destruct H as [nd [E H]]. apply nth_res_ok in E. destruct (Forall2_nth _ _ _ _ _ F E) as (nd' & E' & N). apply nth_res_ok in E'. rewrite E'. cbn [rbind]. apply rbind_ok in H. destruct H as [arr2 [E2 H]].
    rewrite (cn_red _ _ _ N), (cn_sf _ _ _ N), (cn_left _ _ _ N). destruct (nd_left nd); [discriminate|]. injection H as <-.
    destruct (nd_red nd) as [r|]; [|injection E2 as <-; cbn [rbind]; eauto]. apply rbind_ok in E2. destruct E2 as [sf [E3 E2]]. apply opt_res_ok in E3. rewrite E3. cbn [option_map opt_res rbind].
    destruct (add_imp _ _ _ _ _ S (G nd sf (nth_error_In _ _ E) E3) E2) as (arr2' & E4 & S2). rewrite E4. cbn [rbind]. eauto.
  - apply rbind_ok in H. destruct H as [nd [E H]]. apply nth_res_ok in E. destruct (Forall2_nth _ _ _ _ _ F E) as (nd' & E' & N). apply nth_res_ok in E'. rewrite E'. cbn [rbind]. apply rbind_ok in H. destruct H as [arr2 [E2 H]].
    rewrite (cn_red _ _ _ N), (cn_sf _ _ _ N), (cn_left _ _ _ N), (cn_right _ _ _ N).
    assert (Z : exists arr2', match nd_red nd with Some r => do sf <- opt_res (option_map phi (nd_sf nd)) IndexError; add_at arr' sf r | None => Ok arr' end = Ok arr2' /\ imp arr2 arr2').
    { destruct (nd_red nd) as [r|]; [|injection E2 as <-; eauto]. apply rbind_ok in E2. destruct E2 as [sf [E3 E2]]. apply opt_res_ok in E3. rewrite E3. cbn [option_map opt_res rbind]. exact (add_imp _ _ _ _ _ S (G nd sf (nth_error_In _ _ E) E3) E2). }
    destruct Z as (arr2' & Z & S2). rewrite Z. cbn [rbind]. destruct (nd_left nd) as [l|]; [|injection H as <-; eauto].
    apply rbind_ok in H. destruct H as [arr3 [E5 H]]. destruct (IH _ _ _ _ S2 E5) as (arr3' & E5' & S3). rewrite E5'. cbn [rbind]. apply rbind_ok in H. destruct H as [rr [E6 H]]. rewrite E6. cbn [rbind]. eauto.
Qed.
Lemma mdi_trees ts ts' : Forall2 (fun ct ct' : tcfg * tree => fst ct' = fst ct /\ col_tree phi (snd ct) (snd ct')) ts ts' -> (forall ct, In ct ts -> good_tree good (snd ct)) -> forall arr arr' arr1, imp arr arr' ->
  foldM (fun a (ct : tcfg * tree) => mdi_helper (t_nodes (snd ct)) (length (t_nodes (snd ct))) 0 a) arr ts = Ok arr1 ->
  exists arr1', foldM (fun a (ct : tcfg * tree) => mdi_helper (t_nodes (snd ct)) (length (t_nodes (snd ct))) 0 a) arr' ts' = Ok arr1' /\ imp arr1 arr1'.
Proof.
  intros F. induction F as [|ct ct' ts ts' [_ C] F IH]; intros G arr arr' arr1 S H; cbn [foldM] in *; [injection H as <-; eauto|].
  apply rbind_ok in H. destruct H as [arr2 [E H]]. pose proof (ct_nodes _ _ _ C) as FN. rewrite <- (Forall2_len _ _ _ FN). destruct (mdi_imp _ _ FN (G ct (or_introl eq_refl)) _ _ _ _ _ S E) as (arr2' & E' & S2). rewrite E'. cbn [rbind]. apply (IH (fun ct I => G ct (or_intror I)) _ _ _ S2 H).
Qed.
Lemma imp_zero : imp (repeat (Fin 0%Qc) W) (repeat (Fin 0%Qc) W').
Proof.
  assert (Q : forall n j, j < n -> nth_error (repeat (Fin 0%Qc) n) j = Some (Fin 0%Qc)) by (induction n as [|n IH]; intros [|j] H; cbn; try lia; auto; apply IH; lia).
  constructor; rewrite ?repeat_length; auto. intros k G K. rewrite !Q; auto.
Qed.
Lemma cols_mdi f f' data data' arr f2 : col_forest phi f f' -> good_trees good f -> f_mdg f = None -> f_data f = Some data -> f_data f' = Some data' -> rectangular W data -> rectangular W' data' -> length data' = length data ->
  calculate_mdi f = Ok (arr, f2) -> exists arr' f2', calculate_mdi f' = Ok (arr', f2') /\ imp arr arr'.
Proof.
  intros CF G MD D1 D2 R1 R2 LL H. unfold calculate_mdi in *. rewrite (cf_mdg _ _ _ CF), MD in *. rewrite D1 in H. rewrite D2. cbn [opt_res rbind] in *. apply rbind_ok in H. destruct H as [r0 [E H]].
  assert (Q : exists r1, nth_res data' 0 = Ok r1) by (apply nth_res_lt; rewrite LL; apply nth_res_ok in E; apply nth_error_Some; congruence). destruct Q as [r1 E1]. rewrite E1. cbn [rbind].
  apply nth_res_ok in E, E1. rewrite (R1 r0) in H by (eapply nth_error_In; eauto). rewrite (R2 r1) by (eapply nth_error_In; eauto). apply rbind_ok in H. destruct H as [arr1 [E2 H]]. apply ok_pair_inv in H. destruct H as [<- _].
  destruct (mdi_trees _ _ (cf_trees _ _ _ CF) G _ _ _ imp_zero E2) as (arr1' & E3 & S). rewrite E3. cbn [rbind]. eauto.
Qed.
End Mdi.

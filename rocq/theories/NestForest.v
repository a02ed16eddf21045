(** A forest with more estimators starts with the trees of the forest with fewer. *)
From Coq Require Import List Arith Bool ZArith QArith Qcanon Lia.
From Verif Require Import Base Num Rng Histogram Utils Criteria Solvers Tree Forest Spec SolverSpec TreeSpec NestSpec ListFacts.
Import ListNotations.
Local Open Scope nat_scope.

Section Fit.
Context (M : math) (P : prng) (c : fcfg) (data : list (list Qc)) (F : nat).

(** One more tree, or the end. *)
Definition grew (s s' : fstate) : Prop :=
  (exists ts, f_trees (fs_f s') = f_trees (fs_f s) ++ ts /\ (fs_stop s' = false -> length ts = 1) /\ (fs_stop s' = true -> ts = [])) /\
  (exists os, f_oob (fs_f s') = f_oob (fs_f s) ++ os) /\ f_queries (fs_f s) <= f_queries (fs_f s') /\
  f_data (fs_f s') = f_data (fs_f s) /\ f_org (fs_f s') = f_org (fs_f s) /\ f_new (fs_f s') = f_new (fs_f s) /\ f_classes (fs_f s') = f_classes (fs_f s) /\
  f_ncl (fs_f s') = f_ncl (fs_f s) /\ f_dd (fs_f s') = f_dd (fs_f s) /\ f_minmax (fs_f s') = f_minmax (fs_f s).
Lemma tree_grew s i s' : fs_stop s = false -> fit_tree M P c data F s i = Ok s' -> grew s s'.
Proof.
  intros ST H. unfold fit_tree in H. rewrite ST in H. apply rbind_ok in H. destruct H as [[[rows feats] gen1] [_ H]].
  match type of H with (if ?b then _ else _) = _ => destruct b end.
  { assert (E : forall x y : fstate, Ok x = Ok y -> y = x) by (intros; congruence). apply E in H. subst s'. unfold grew. cbn. split; [exists []; rewrite app_nil_r; repeat split; auto; discriminate|]. split; [exists []; now rewrite app_nil_r|]. auto 10. }
  apply rbind_ok in H. destruct H as [orgr [_ H]]. apply rbind_ok in H. destruct H as [newr [_ H]]. apply rbind_ok in H. destruct H as [[rows2 gen2] [_ H]].
  cbv zeta in H. destruct (draw (e_np (fs_e s))) as [seed np']. apply rbind_ok in H. destruct H as [la [_ H]]. apply rbind_ok in H. destruct H as [[t0 e0] [_ H]]. apply rbind_ok in H. destruct H as [[t e1] [_ H]]. cbn [fst snd] in H.
  assert (OO : exists os, (if fc_bootstrap c && fc_oob c then f_oob (fs_f s) ++ [get_out_of_bag rows2 (length data)] else f_oob (fs_f s)) = f_oob (fs_f s) ++ os).
  { destruct (fc_bootstrap c && fc_oob c); [eauto|exists []; now rewrite app_nil_r]. }
  assert (E : forall x y : fstate, Ok x = Ok y -> y = x) by (intros; congruence).
  match type of H with (if ?b then _ else _) = _ => destruct b end.
  { apply E in H. subst s'. unfold grew. cbn. split; [exists []; rewrite app_nil_r; repeat split; auto; discriminate|]. split; [exact OO|]. auto 10. }
  apply rbind_ok in H. destruct H as [[t2 h2] [_ H]]. apply rbind_ok in H. destruct H as [[] [_ H]]. apply E in H. subst s'. unfold grew. cbn. split; [eexists; repeat split; auto; discriminate|]. split; [exact OO|]. split; [lia|]. auto 10.
Qed.
Lemma stopped l : forall s, fs_stop s = true -> foldM (fit_tree M P c data F) s l = Ok s.
Proof. induction l as [|i l IH]; intros s S; cbn [foldM]; auto. unfold fit_tree at 1. rewrite S. cbn [rbind]. auto. Qed.
(** After a run over l1 ++ l2. *)
Lemma grew_trees l : forall s s', fs_stop s = false -> foldM (fit_tree M P c data F) s l = Ok s' ->
  (exists ts, f_trees (fs_f s') = f_trees (fs_f s) ++ ts /\ length ts <= length l /\ (fs_stop s' = false -> length ts = length l) /\ (fs_stop s' = true -> length ts < length l)) /\
  (exists os, f_oob (fs_f s') = f_oob (fs_f s) ++ os) /\ f_queries (fs_f s) <= f_queries (fs_f s') /\
  f_data (fs_f s') = f_data (fs_f s) /\ f_org (fs_f s') = f_org (fs_f s) /\ f_new (fs_f s') = f_new (fs_f s) /\ f_classes (fs_f s') = f_classes (fs_f s) /\
  f_ncl (fs_f s') = f_ncl (fs_f s) /\ f_dd (fs_f s') = f_dd (fs_f s) /\ f_minmax (fs_f s') = f_minmax (fs_f s).
Proof.
  induction l as [|i l IH]; intros s s' ST H; cbn [foldM] in H.
  { assert (s = s') by congruence. subst. split; [exists []; rewrite app_nil_r; cbn; repeat split; auto; congruence|]. split; [exists []; now rewrite app_nil_r|]. auto 10. }
  apply rbind_ok in H. destruct H as [s1 [E H]]. destruct (tree_grew _ _ _ ST E) as ((ts & T1 & T2 & T3) & (os & O1) & Q & R1 & R2 & R3 & R4 & R5 & R6 & R7).
  destruct (fs_stop s1) eqn:S1.
  - rewrite stopped in H by auto. assert (s1 = s') by congruence. subst s1. rewrite (T3 eq_refl) in *. split; [exists []; cbn; repeat split; auto; [lia|congruence|lia]|]. split; [eauto|]. auto 10.
  - destruct (IH _ _ S1 H) as ((ts' & T1' & T2' & T3' & T4') & (os' & O1') & Q' & R1' & R2' & R3' & R4' & R5' & R6' & R7'). specialize (T2 eq_refl).
    split; [exists (ts ++ ts'); rewrite T1', T1, app_assoc, app_length, T2; cbn [length]; split; auto; split; [lia|]; split; intros Z; [rewrite T3' by auto; lia|specialize (T4' Z); lia]|].
    split; [exists (os ++ os'); rewrite O1', O1, app_assoc; auto|]. repeat split; congruence || lia.
Qed.
Lemma runs_nest s0 n m s s' : n <= m -> fs_stop s0 = false -> f_trees (fs_f s0) = [] ->
  foldM (fit_tree M P c data F) s0 (seq 0 n) = Ok s -> foldM (fit_tree M P c data F) s0 (seq 0 m) = Ok s' -> continues n (fs_f s) (fs_f s').
Proof.
  intros LE ST T0 H H'. replace m with (n + (m - n)) in H' by lia. rewrite seq_app, foldM_app, H in H'. cbn [rbind] in H'. destruct (grew_trees _ _ _ ST H) as ((ts & T1 & T2 & T3 & T4) & _). rewrite seq_length in *. rewrite T0 in T1. cbn [app] in T1.
  destruct (fs_stop s) eqn:S1.
  - rewrite stopped in H' by auto. assert (s = s') by congruence. subst s'. specialize (T4 eq_refl). constructor; auto; [exists []; now rewrite app_nil_r| |exists []; now rewrite app_nil_r|auto 10].
    unfold capped. destruct (Nat.ltb_spec n (length (f_trees (fs_f s)))); auto. rewrite T1 in *. lia.
  - destruct (grew_trees _ _ _ S1 H') as ((ts' & T1' & T2' & _) & OO & Q & R). constructor; eauto. rewrite T1', app_length, T1, T3 by auto. unfold capped. destruct (Nat.ltb_spec n (n + length ts')); lia.
Qed.
End Fit.

Theorem more_trees M P c n m f arg h e f1 h1 e1 f2 h2 e2 : n <= m ->
  forest_fit M P (with_estimators c n) f arg h e = Ok (f1, h1, e1) -> forest_fit M P (with_estimators c m) f arg h e = Ok (f2, h2, e2) -> continues n f1 f2.
Proof.
  intros LE H H'. unfold forest_fit in H, H'. apply rbind_ok in H. destruct H as [[[od org] new] [E1 H]]. rewrite E1 in H'. cbn [rbind] in H'. apply rbind_ok in H. destruct H as [data [E2 H]]. rewrite E2 in H'. cbn [rbind] in H'.
  apply rbind_ok in H. destruct H as [r0 [E3 H]]. rewrite E3 in H'. cbn [rbind] in H'. cbv zeta in H, H'. cbn [with_estimators fc_class fc_bin fc_make_discrete fc_precomp_minmax fc_oob fc_n] in H, H'.
  apply rbind_ok in H. destruct H as [[[org2 new2] h0] [E4 H]]. rewrite E4 in H'. cbn [rbind] in H'. apply rbind_ok in H. destruct H as [dd [E5 H]]. rewrite E5 in H'. cbn [rbind] in H'. apply rbind_ok in H. destruct H as [mm [E6 H]]. rewrite E6 in H'. cbn [rbind] in H'.
  apply rbind_ok in H. destruct H as [s [E7 H]]. apply rbind_ok in H'. destruct H' as [s' [E7' H']].
  assert (fs_f s = f1) by congruence. assert (fs_f s' = f2) by congruence. subst f1 f2. 
  change (fit_tree M P (with_estimators c n)) with (fit_tree M P c) in E7. change (fit_tree M P (with_estimators c m)) with (fit_tree M P c) in E7'. eapply runs_nest; [exact LE| | |exact E7|exact E7']; reflexivity.
Qed.
Theorem fewer_trees_fit M P c n m f arg h e f2 h2 e2 : n <= m ->
  forest_fit M P (with_estimators c m) f arg h e = Ok (f2, h2, e2) -> exists f1 h1 e1, forest_fit M P (with_estimators c n) f arg h e = Ok (f1, h1, e1).
Proof.
  intros LE H'. unfold forest_fit in *. apply rbind_ok in H'. destruct H' as [[[od org] new] [E1 H']]. rewrite E1. cbn [rbind]. apply rbind_ok in H'. destruct H' as [data [E2 H']]. rewrite E2. cbn [rbind].
  apply rbind_ok in H'. destruct H' as [r0 [E3 H']]. rewrite E3. cbn [rbind]. cbv zeta in *. cbn [with_estimators fc_class fc_bin fc_make_discrete fc_precomp_minmax fc_oob fc_n] in *.
  apply rbind_ok in H'. destruct H' as [[[org2 new2] h0] [E4 H']]. rewrite E4. cbn [rbind]. apply rbind_ok in H'. destruct H' as [dd [E5 H']]. rewrite E5. cbn [rbind]. apply rbind_ok in H'. destruct H' as [mm [E6 H']]. rewrite E6. cbn [rbind].
  apply rbind_ok in H'. destruct H' as [s' [E7' H']]. change (fit_tree M P (with_estimators c m)) with (fit_tree M P (with_estimators c n)) in E7'. replace m with (n + (m - n)) in E7' by lia. rewrite seq_app, foldM_app in E7'. apply rbind_ok in E7'. destruct E7' as [s [E7 _]].
  rewrite E7. cbn [rbind]. eauto.
Qed.

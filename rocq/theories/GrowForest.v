(** Non-negative values of min_impurity_decrease give the same forest. *)
From Coq Require Import List Arith Bool ZArith QArith Qcanon Lia.
From Verif Require Import Base Num Rng Histogram Utils Criteria Solvers Tree Forest Spec SolverSpec TreeSpec GrowSpec ListFacts NumFacts TreeFacts TreeThms GrowFacts GrowThms GrowStops.
Import ListNotations.
Local Open Scope nat_scope.

Theorem same_fit M P c m1 m2 a e t0 e0 : (0 <= m1)%Qc -> (0 <= m2)%Qc -> tree_new P (with_min_decrease c m1) a e = Ok (t0, e0) ->
  tree_new P (with_min_decrease c m2) a e = Ok (t0, e0) /\ tree_fit M (with_min_decrease c m2) t0 (None, None) e0 = tree_fit M (with_min_decrease c m1) t0 (None, None) e0.
Proof. intros Z1 Z2 H. split; [exact H|]. symmetry. eapply fit_same; eauto. Qed.

Lemma batch_retag tc m xs : forall t, tree_predict_batch (with_min_decrease tc m) t xs = tree_predict_batch tc t xs.
Proof.
  induction xs as [|x xs IH]; intros t; cbn [tree_predict_batch]; auto. change (tree_predict (with_min_decrease tc m) t x) with (tree_predict tc t x). destruct (tree_predict tc t x) as [r|]; cbn [rbind]; auto. now rewrite IH.
Qed.
Section Forest.
Context (M : math) (P : prng) (c : fcfg) (m1 m2 : Qc) (Z1 : (0 <= m1)%Qc) (Z2 : (0 <= m2)%Qc) (data : list (list Qc)) (F : nat).
Notation c1 := (forest_min_decrease c m1).
Notation c2 := (forest_min_decrease c m2).
Definition restate (s : fstate) : fstate := {| fs_f := retag m2 (fs_f s); fs_e := fs_e s; fs_h := fs_h s; fs_stop := fs_stop s |}.
Lemma tree_same s i s' : fit_tree M P c1 data F s i = Ok s' -> fit_tree M P c2 data F (restate s) i = Ok (restate s').
Proof.
  unfold fit_tree. cbn [restate fs_stop fs_f fs_e fs_h]. destruct (fs_stop s) eqn:ST; [intros H; assert (s = s') by congruence; subst s'; unfold restate; now rewrite ST|].
  cbn [retag set_trees upd_forest f_gen f_budget f_org f_new f_oob f_dd f_classes f_minmax f_queries f_trees].
  change (subset_draw c2) with (subset_draw c1). intros H. apply rbind_ok in H. destruct H as [[[rows feats] gen1] [E1 H]]. rewrite E1. cbn [rbind].
  match type of H with (if ?b then _ else _) = _ => destruct b end.
  { match type of H with Ok ?z = _ => assert (X : z = s') by congruence end. rewrite <- X. reflexivity. }
  apply rbind_ok in H. destruct H as [orgr [E2 H]]. rewrite E2. cbn [rbind]. apply rbind_ok in H. destruct H as [newr [E3 H]]. rewrite E3. cbn [rbind].
  cbn [forest_min_decrease fc_bootstrap fc_oob fc_class fc_boosting] in *. apply rbind_ok in H. destruct H as [[rows2 gen2] [E4 H]]. rewrite E4. cbn [rbind].
  destruct (draw (e_np (fs_e s))) as [seed np']. cbv zeta in *. apply rbind_ok in H. destruct H as [la [E5 H]]. rewrite E5. cbn [rbind].
  set (ta := {| ta_data := data; ta_labels := la_vals la; ta_budget := f_budget (fs_f s); ta_dd := f_dd (fs_f s); ta_seed := seed; ta_idcs := Some rows2; ta_feats := Some feats |}) in *.
  apply rbind_ok in H. destruct H as [[t0 e0] [E6 H]]. apply rbind_ok in H. destruct H as [[t1 e1] [E7 H]]. cbn [fst snd] in *.
  set (tc1 := tree_cfg c1 (f_classes (fs_f s)) (f_minmax (fs_f s))) in *. set (tc2 := tree_cfg c2 (f_classes (fs_f s)) (f_minmax (fs_f s))) in *.
  assert (T2 : tc2 = with_min_decrease tc1 m2) by reflexivity. assert (T1 : tc1 = with_min_decrease tc1 m1) by reflexivity.
  rewrite T1 in E6, E7. destruct (same_fit M P tc1 m1 m2 ta _ _ _ Z1 Z2 E6) as [K1 K2]. rewrite T2, K1. cbn [rbind fst snd]. rewrite K2, E7. cbn [rbind].
  destruct (keep_tree (f_budget (fs_f s)) (t_queries t1)); cbn [negb] in *.
  2:{ match type of H with Ok ?z = _ => assert (X : z = s') by congruence end. rewrite <- X. reflexivity. }
  apply rbind_ok in H. destruct H as [[t2 h2] [E8 H]].
  assert (K8 : (if fc_boosting c then boost c2 i (with_min_decrease tc1 m2) t1 data rows2 newr (fs_h s) else Ok (t1, fs_h s)) = Ok (t2, h2)) by (destruct (fc_boosting c); [|exact E8]; unfold boost in E8 |- *; destruct (take_idx data rows2) as [rw|]; [|exact E8]; cbn [rbind] in E8 |- *; rewrite (batch_retag tc1 m2 rw t1); exact E8). rewrite K8. cbn [rbind].
  apply rbind_ok in H. destruct H as [[] [E9 H]]. rewrite E9. cbn [rbind]. match type of H with Ok ?z = _ => assert (X : z = s') by congruence end. rewrite <- X. unfold restate. cbn [fs_f fs_e fs_h fs_stop retag set_trees upd_forest f_trees f_budget f_queries f_oob f_gen f_data f_org f_new f_classes f_ncl f_dd f_minmax f_mdg].
  unfold retag, set_trees, upd_forest. cbn [f_trees f_budget f_queries f_oob f_gen f_data f_org f_new f_classes f_ncl f_dd f_minmax f_mdg]. rewrite map_app. reflexivity.
Qed.
Lemma trees_same l : forall s s', foldM (fit_tree M P c1 data F) s l = Ok s' -> foldM (fit_tree M P c2 data F) (restate s) l = Ok (restate s').
Proof.
  induction l as [|i l IH]; intros s s' H; cbn [foldM] in *; [assert (s = s') by congruence; now subst|]. apply rbind_ok in H. destruct H as [s1 [E H]]. rewrite (tree_same _ _ _ E). cbn [rbind]. auto.
Qed.
End Forest.
Theorem forest_same M P c m1 m2 f arg h e f1 h1 e1 : (0 <= m1)%Qc -> (0 <= m2)%Qc ->
  forest_fit M P (forest_min_decrease c m1) f arg h e = Ok (f1, h1, e1) -> forest_fit M P (forest_min_decrease c m2) f arg h e = Ok (retag m2 f1, h1, e1).
Proof.
  intros Z1 Z2 H. unfold forest_fit in *. apply rbind_ok in H. destruct H as [[[od org] new] [E1 H]]. rewrite E1. cbn [rbind]. apply rbind_ok in H. destruct H as [data [E2 H]]. rewrite E2. cbn [rbind].
  apply rbind_ok in H. destruct H as [r0 [E3 H]]. rewrite E3. cbn [rbind]. cbv zeta in *. cbn [forest_min_decrease fc_class fc_bin fc_make_discrete fc_precomp_minmax fc_oob fc_n] in *.
  apply rbind_ok in H. destruct H as [[[org2 new2] h0] [E4 H]]. rewrite E4. cbn [rbind]. apply rbind_ok in H. destruct H as [dd [E5 H]]. rewrite E5. cbn [rbind]. apply rbind_ok in H. destruct H as [mm [E6 H]]. rewrite E6. cbn [rbind].
  apply rbind_ok in H. destruct H as [s [E7 H]]. apply (trees_same M P c m1 m2 Z1 Z2) in E7.
  match type of E7 with foldM _ ?x _ = _ => match goal with |- context [foldM _ ?y (seq 0 (fc_n c))] => change x with y in E7 end end. rewrite E7. cbn [rbind]. assert (fs_f s = f1) by congruence. assert (fs_h s = h1) by congruence. assert (fs_e s = e1) by congruence. subst. reflexivity.
Qed.
Lemma trees_predict_retag m ts x ps ts' : trees_predict ts x = Ok (ps, ts') -> trees_predict (map (fun p => (with_min_decrease (fst p) m, snd p)) ts) x = Ok (ps, map (fun p => (with_min_decrease (fst p) m, snd p)) ts').
Proof.
  revert ps ts'. induction ts as [|[tc t] ts IH]; intros ps ts' H; cbn [trees_predict map fst snd] in *; [injection H as <- <-; reflexivity|].
  apply rbind_ok in H. destruct H as [r [E1 H]]. apply rbind_ok in H. destruct H as [[ps0 ts0] [E2 H]]. change (tree_predict (with_min_decrease tc m) t x) with (tree_predict tc t x). rewrite E1. cbn [rbind]. rewrite (IH _ _ E2). cbn [rbind fst snd] in *. injection H as <- <-. reflexivity.
Qed.
Theorem predict_retag c m m' f x p f' : forest_predict (forest_min_decrease c m) f x = Ok (p, f') -> forest_predict (forest_min_decrease c m') (retag m' f) x = Ok (p, retag m' f').
Proof.
  unfold forest_predict. intros H. apply rbind_ok in H. destruct H as [[ps ts] [E H]]. cbn [retag set_trees upd_forest f_trees]. rewrite (trees_predict_retag m' _ _ _ _ E). cbn [rbind].
  cbn [forest_min_decrease fc_class fc_boosting fc_lr] in *. destruct (fc_class c).
  - apply rbind_ok in H. destruct H as [rows [E2 H]]. change (f_ncl (retag m' f)) with (f_ncl f). change (f_classes (retag m' f)) with (f_classes f). rewrite E2. cbn [rbind]. destruct rows as [|r rows].
    + apply rbind_ok in H. destruct H as [k [E3 H]]. rewrite E3. cbn [rbind]. injection H as <- <-. reflexivity.
    + cbv zeta in *. apply rbind_ok in H. destruct H as [k [E3 H]]. rewrite E3. cbn [rbind]. apply rbind_ok in H. destruct H as [l [E4 H]]. rewrite E4. cbn [rbind]. injection H as <- <-. reflexivity.
  - apply rbind_ok in H. destruct H as [vs [E2 H]]. rewrite E2. cbn [rbind]. destruct (fc_boosting c).
    + destruct vs as [|v vs]; [discriminate|]. apply rbind_ok in H. destruct H as [lr [E3 H]]. rewrite E3. cbn [rbind]. injection H as <- <-. reflexivity.
    + destruct vs as [|v vs]; injection H as <- <-; reflexivity.
Qed.

(** The fit with a smaller max_leaf_nodes stops on the way of the fit with a larger one. *)
From Coq Require Import List Arith Bool ZArith QArith Qcanon Lia Permutation.
From Verif Require Import Base Num Rng Histogram Utils Criteria Solvers Tree Spec SolverSpec TreeSpec NestSpec ListFacts NumFacts TreeFacts TreeThms ColSim.
Import ListNotations.
Local Open Scope nat_scope.

(** What happens to one node. *)
Record nle (nd nd' : node) : Prop := {
  ne_same : same_node nd nd';
  ne_split : nd_left nd <> None -> nd' = nd;
  ne_leaf : nd_left nd' = None -> nd_right nd' = nd_right nd /\ nd_labels nd' = nd_labels nd /\ nd_probs nd' = nd_probs nd /\ nd_plabel nd' = nd_plabel nd /\ nd_pval nd' = nd_pval nd
}.
Definition tle (t t' : tree) : Prop := forall id nd, node_at t id nd -> exists nd', node_at t' id nd' /\ nle nd nd'.
Lemma same_refl nd : same_node nd nd.
Proof. unfold same_node. tauto. Qed.
Lemma same_trans a b c : same_node a b -> same_node b c -> same_node a c.
Proof. unfold same_node. intuition congruence. Qed.
Lemma nle_refl nd : nle nd nd.
Proof. constructor; auto. apply same_refl. Qed.
Lemma nle_trans a b c : nle a b -> nle b c -> nle a c.
Proof.
  intros [A1 A2 A3] [B1 B2 B3]. constructor; [eapply same_trans; eauto| |].
  - intros H. rewrite (A2 H) in *. auto.
  - intros H. destruct (nd_left b) eqn:LB; [rewrite (B2 ltac:(congruence)) in *; congruence|]. specialize (A3 eq_refl). specialize (B3 H). intuition congruence.
Qed.
Lemma tle_refl t : tle t t.
Proof. intros id nd A. exists nd. split; auto. apply nle_refl. Qed.
Lemma tle_trans t t1 t2 : tle t t1 -> tle t1 t2 -> tle t t2.
Proof. intros A B id nd H. destruct (A _ _ H) as [x [X1 X2]]. destruct (B _ _ X1) as [y [Y1 Y2]]. exists y. split; auto. eapply nle_trans; eauto. Qed.
Lemma nodes_tle t t1 t2 : t_nodes t2 = t_nodes t1 -> tle t t1 -> tle t t2.
Proof. unfold tle, node_at. now intros ->. Qed.
Lemma put_tle t id nd nd1 : node_at t id nd -> nle nd nd1 -> tle t (put_node t id nd1).
Proof.
  intros A N i x X. unfold node_at in *. cbn [put_node set_nodes t_nodes]. rewrite set_nth_nth, A. destruct (Nat.eqb_spec i id) as [->|].
  - exists nd1. split; auto. assert (x = nd) by congruence. now subst.
  - exists x. split; auto. apply nle_refl.
Qed.
Lemma best_nle M c nd b e x o e1 : nd_left nd = None -> calculate_best_split M c nd b e = Ok (x, o, e1) -> nle nd x /\ nd_left x = None.
Proof.
  unfold calculate_best_split. intros LF H. destruct (nd_computed nd) eqn:C.
  - apply ok_pair_inv in H. destruct H as [H _]. apply pair_equal_spec in H. destruct H as [<- _]. split; auto. apply nle_refl.
  - apply rbind_ok in H. destruct H as [[[s bins] e2] [_ H]]. destruct s as [f v r q|q].
    + apply rbind_ok in H. destruct H as [sf [_ H]]. apply ok_pair_inv in H. destruct H as [H _]. apply pair_equal_spec in H. destruct H as [<- _]. split; [|exact LF]. constructor; [repeat split|congruence|cbn; tauto].
    + apply ok_pair_inv in H. destruct H as [H _]. apply pair_equal_spec in H. destruct H as [<- _]. split; [|exact LF]. constructor; [repeat split|congruence|cbn; tauto].
Qed.
Lemma wsplit_nle nd b : nd_left nd = None -> nle nd (with_splittable nd b).
Proof. intros H. constructor; [repeat split|congruence|cbn; tauto]. Qed.
Lemma scan_tle M c z pos id z1 : (forall nd, node_at (sc_tree z) id nd -> nd_left nd = None) -> scan_leaf M c z (pos, id) = Ok z1 -> tle (sc_tree z) (sc_tree z1) /\ t_queries (sc_tree z) <= t_queries (sc_tree z1).
Proof.
  intros F H. unfold scan_leaf in H. destruct (sc_stop z); [assert (z = z1) by congruence; subst; split; auto; apply tle_refl|].
  apply rbind_ok in H. destruct H as [nd [E1 H]]. apply nth_res_ok in E1. pose proof (F _ E1) as LF. apply rbind_ok in H. destruct H as [ok [E2 H]]. destruct ok; cbn [negb] in H.
  2:{ match type of H with Ok ?z0 = _ => assert (X : z0 = z1) by congruence end. rewrite <- X. cbn [sc_tree]. split; auto. apply put_tle with (nd := nd); auto. now apply wsplit_nle. }
  match type of H with (if ?b then _ else _) = _ => destruct b end.
  { match type of H with Ok ?z0 = _ => assert (X : z0 = z1) by congruence end. rewrite <- X. cbn [sc_tree]. split; auto. apply tle_refl. }
  apply rbind_ok in H. destruct H as [[[nd1 red] e1] [E3 H]]. destruct (best_computed _ _ _ _ _ _ _ _ E3) as [C1 S1]. destruct (best_nle _ _ _ _ _ _ _ _ LF E3) as [N1 LF1]. cbv zeta in H.
  set (t2 := if nd_computed nd then put_node (sc_tree z) id nd1 else pay (put_node (sc_tree z) id nd1) (nd_queries nd1)) in *.
  assert (TN : t_nodes t2 = t_nodes (put_node (sc_tree z) id nd1)) by (unfold t2; destruct (nd_computed nd); reflexivity).
  assert (TQ : t_queries (sc_tree z) <= t_queries t2) by (unfold t2; destruct (nd_computed nd); cbn; lia).
  assert (A2 : nth_error (t_nodes t2) id = Some nd1) by (rewrite TN; cbn [put_node set_nodes t_nodes]; now rewrite set_nth_nth, E1, Nat.eqb_refl).
  apply rbind_ok in H. destruct H as [[[spl nd3] e3] [E4 H]]. match type of H with Ok ?z0 = _ => assert (X : z0 = z1) by congruence end. rewrite <- X. cbn [sc_tree]. split; [|exact TQ].
  apply tle_trans with t2; [apply (nodes_tle _ _ _ TN); now apply put_tle with (nd := nd)|]. apply put_tle with (nd := nd1); auto.
  destruct (nd_splittable nd1); [assert (nd3 = nd1) by congruence; subst; apply nle_refl|]. apply rbind_ok in E4. destruct E4 as [[[b nd2] e2] [E5 E4]]. apply (splittable_same _ _ _ _ _ _ _ _ C1) in E5. subst nd2. assert (nd3 = with_splittable nd1 b) by congruence. subst nd3. now apply wsplit_nle.
Qed.

Section Inv.
Context (M : math) (c : tcfg) (D : list (list Qc)) (L : list Qc) (FS I0 : list nat) (b0 : option Z).
Notation inv := (tinv M c D L FS I0 b0).

Lemma scans_tle t l : (forall pos id, In (pos, id) l -> nth_error (t_leaves t) pos = Some id) ->
  forall z z1, scan_ok M c D L FS I0 b0 t z -> foldM (scan_leaf M c) z l = Ok z1 -> tle (sc_tree z) (sc_tree z1) /\ t_queries (sc_tree z) <= t_queries (sc_tree z1).
Proof.
  induction l as [|[pos id] l IH]; intros HL z z1 S H; cbn [foldM] in H; [assert (z = z1) by congruence; subst; split; auto; apply tle_refl|].
  apply rbind_ok in H. destruct H as [z2 [E H]]. assert (P1 : nth_error (t_leaves t) pos = Some id) by (apply HL; now left).
  destruct (scan_tle M c z pos id z2) as [A1 A2]; auto.
  { intros nd A. pose proof (so_tree _ _ _ _ _ _ _ _ _ S) as T. assert (I : In id (t_leaves (sc_tree z))) by (rewrite (so_leaves _ _ _ _ _ _ _ _ _ S); eapply nth_error_In; eauto).
    apply (ti_leaves _ _ _ _ _ _ _ _ T) in I. destruct I as [x [X LF]]. unfold node_at in *. congruence. }
  assert (S2 : scan_ok M c D L FS I0 b0 t z2) by (eapply scan_leaf_ok; eauto). destruct (IH (fun p i J => HL p i (or_intror J)) z2 z1 S2 H) as [B1 B2]. split; [eapply tle_trans; eauto|lia].
Qed.
Lemma leaf_places (l : list nat) pos id : In (pos, id) (combine (seq 0 (length l)) l) -> nth_error l pos = Some id.
Proof.
  intros I. apply In_nth_error in I. destruct I as [k I]. rewrite combine_nth_error in I.
  destruct (nth_error (seq 0 (length l)) k) eqn:E1; [|discriminate]. destruct (nth_error l k) eqn:E2; [|discriminate]. injection I as <- <-.
  rewrite nth_error_nth' with (d := 0) in E1 by (apply nth_error_Some; congruence). assert (k < length l) by (apply nth_error_Some; congruence). rewrite seq_nth in E1 by auto. injection E1 as <-. auto.
Qed.
Lemma step_tle t e t' e' b : inv t -> fit_step M c t e = Ok (t', e', b) -> tle t t' /\ t_queries t <= t_queries t'.
Proof.
  intros T H. unfold fit_step in H. apply rbind_ok in H. destruct H as [s [ES H]]. pose proof (scan_ok_all _ _ _ _ _ _ _ _ _ _ T ES) as SO.
  assert (S0 : scan_ok M c D L FS I0 b0 t {| sc_tree := t; sc_env := e; sc_best := None; sc_stop := false |}) by (constructor; cbn; auto).
  destruct (scans_tle t _ (leaf_places (t_leaves t)) _ _ S0 ES) as [A1 A2]. cbn [sc_tree] in A1, A2.
  destruct SO as [T1 L1 S1 NN1 B1]. cbv zeta in H. apply rbind_ok in H. destruct H as [[[t3 e3] cont] [EC H]]. apply rbind_ok in H. destruct H as [d [ED H]]. apply ok_pair_inv in H. destruct H as [H _]. apply pair_equal_spec in H. destruct H as [<- _].
  enough (K : tle t t3 /\ t_queries t <= t_queries t3) by (destruct K; split; auto; now apply (nodes_tle _ t3)).
  destruct (sc_best s) as [[[pos id] x]|]; [|assert (sc_tree s = t3) by congruence; now subst].
  destruct (xlt x (Fin (tc_min_imp c))) eqn:X; [|assert (sc_tree s = t3) by congruence; now subst].
  apply rbind_ok in EC. destruct EC as [[t2 e2] [E2 EC]]. cbn [fst snd] in EC. destruct B1 as [P [nd [A [LF [CC [RX SP]]]]]].
  destruct (fit_step_split _ _ _ _ _ _ _ _ _ _ _ _ _ _ _ T1 P A LF CC RX X E2) as [nl [nr [nd' [TE [A' [EN' _]]]]]].
  apply rbind_ok in EC. destruct EC as [nd2 [EN EC]]. apply nth_res_ok in EN. cbn [inc_splits t_nodes] in EN. assert (nd2 = nd') by (unfold node_at in *; congruence). subst nd2 nd'.
  apply ok_pair_inv in EC. destruct EC as [EC _]. apply pair_equal_spec in EC. destruct EC as [<- _]. split; [|rewrite TE; cbn; exact A2].
  apply tle_trans with (sc_tree s); [exact A1|]. intros i x0 X0. unfold node_at. cbn [set_leaves put_node set_nodes inc_splits t_nodes]. rewrite set_nth_nth. unfold node_at in A'. rewrite A'.
  destruct (Nat.eqb_spec i id) as [->|NE].
  - eexists. split; [reflexivity|]. assert (x0 = nd) by (unfold node_at in *; congruence). subst x0. constructor; [repeat split|congruence|cbn; discriminate].
  - exists x0. split; [|apply nle_refl]. rewrite TE. cbn [set_nodes t_nodes]. rewrite nth_error_app1; [|rewrite set_nth_length; apply nth_error_Some; unfold node_at in X0; congruence].
    rewrite set_nth_nth. unfold node_at in A. rewrite A. apply Nat.eqb_neq in NE. now rewrite NE.
Qed.
Lemma loop_tle fuel : forall t e t' e', inv t -> fit_loop M c fuel t e = Ok (t', e') -> tle t t' /\ t_queries t <= t_queries t'.
Proof.
  induction fuel as [|fuel IH]; intros t e t' e' T H; cbn [fit_loop] in H; apply rbind_ok in H; destruct H as [stop [EF H]]; destruct stop.
  - apply ok_pair_inv in H. destruct H as [<- _]. split; auto. apply tle_refl.
  - discriminate H.
  - apply ok_pair_inv in H. destruct H as [<- _]. split; auto. apply tle_refl.
  - apply rbind_ok in H. destruct H as [[[t1 e1] cont] [ES H]]. destruct (step_tle _ _ _ _ _ T ES) as [A1 A2]. destruct cont; [|apply ok_pair_inv in H; destruct H as [<- _]; auto].
    destruct (fit_step_tinv _ _ _ _ _ _ _ _ _ _ _ _ T ES) as [T1 _]. destruct (IH _ _ _ _ T1 H) as [B1 B2]. split; [eapply tle_trans; eauto|lia].
Qed.
(** The loop with a larger limit passes through the result of the loop with a smaller one. *)
Lemma loop_nest m m' fuel : limit_le m m' -> forall t e t' e', inv t -> (forall k, m = Some k -> length (t_leaves t) <= k) ->
  tc_max_leaves c = m' -> fit_loop M c fuel t e = Ok (t', e') ->
  exists t1 e1, fit_loop M (with_leaf_limit c m) fuel t e = Ok (t1, e1) /\ tle t1 t' /\ t_queries t1 <= t_queries t' /\ length (t_leaves t1) = capped m (length (t_leaves t')) /\
    (length (t_leaves t1) = length (t_leaves t') -> t_nodes t1 = t_nodes t' \/ m = Some (length (t_leaves t1))).
Proof.
  intros LE. induction fuel as [|fuel IH]; intros t e t' e' T HM EM H; pose proof H as H0; cbn [fit_loop] in H; apply rbind_ok in H; destruct H as [stop [EF H]]; rewrite EM in EF.
  - destruct stop; [|discriminate H]. apply ok_pair_inv in H. destruct H as [<- _]. destruct m' as [k'|]; [|discriminate]. destruct (Nat.eqb_spec (length (t_leaves t)) k') as [EK|]; [|destruct (k' <? _); discriminate].
    destruct m as [k|]; [|destruct LE]. specialize (HM k eq_refl). cbn in LE. assert (k = length (t_leaves t)) by lia. subst k. exists t, e. cbn [fit_loop with_leaf_limit tc_max_leaves]. rewrite Nat.eqb_refl. cbn [rbind]. ands; auto. apply tle_refl. cbn. now rewrite Nat.ltb_irrefl.
  - destruct (loop_tinv _ _ _ _ _ _ _ _ _ _ _ _ T H0) as [T' [LS [LM _]]]. destruct (loop_tle _ _ _ _ _ T H0) as [TL TQ]. pose proof (ti_splits _ _ _ _ _ _ _ _ T) as [SL _]. pose proof (ti_splits _ _ _ _ _ _ _ _ T') as [SL' _].
    destruct (match m with None => true | Some k => negb (length (t_leaves t) =? k) end) eqn:EN.
    2:{ destruct m as [k|]; [|discriminate]. apply negb_false_iff in EN. exists t, e. cbn [fit_loop with_leaf_limit tc_max_leaves]. rewrite EN. cbn [rbind]. apply Nat.eqb_eq in EN. ands; auto.
        cbn. destruct (Nat.ltb_spec k (length (t_leaves t'))); lia. }
    assert (ST : match m with None => Ok false | Some k => if length (t_leaves t) =? k then Ok true else if k <? length (t_leaves t) then Err GenericException else Ok false end = Ok false).
    { destruct m as [k|]; auto. specialize (HM k eq_refl). apply negb_true_iff in EN. rewrite EN. destruct (Nat.ltb_spec k (length (t_leaves t))); [lia|auto]. }
    destruct stop.
    { exfalso. destruct m' as [k'|]; [|discriminate]. destruct (Nat.eqb_spec (length (t_leaves t)) k') as [EK|]; [|destruct (k' <? _); discriminate]. destruct m as [k|]; [|destruct LE]. specialize (HM k eq_refl). cbn in LE. apply negb_true_iff, Nat.eqb_neq in EN. lia. }
    apply rbind_ok in H. destruct H as [[[t1 e1] cont] [ES H]]. destruct (fit_step_tinv _ _ _ _ _ _ _ _ _ _ _ _ T ES) as [T1 [_ [C1 C2]]].
    assert (ES' : fit_step M (with_leaf_limit c m) t e = Ok (t1, e1, cont)) by exact ES. pose proof (ti_splits _ _ _ _ _ _ _ _ T1) as [SL1 _].
    destruct cont.
    + destruct (IH t1 e1 t' e' T1) as (t2 & e2 & F2 & Q); auto.
      { intros k ->. specialize (HM k eq_refl). apply negb_true_iff, Nat.eqb_neq in EN. rewrite C1 in SL1 by auto. lia. }
      exists t2, e2. split; [|exact Q]. cbn [fit_loop]. change (tc_max_leaves (with_leaf_limit c m)) with m. rewrite ST. cbn [rbind]. rewrite ES'. cbn [rbind]. exact F2.
    + apply ok_pair_inv in H. destruct H as [<- <-]. exists t1, e1. split; [cbn [fit_loop]; change (tc_max_leaves (with_leaf_limit c m)) with m; rewrite ST; cbn [rbind]; rewrite ES'; reflexivity|]. ands; auto; [apply tle_refl|].
      unfold capped. destruct m as [k|]; auto. specialize (HM k eq_refl). rewrite C2 in SL1 by auto. destruct (Nat.ltb_spec k (length (t_leaves t1))); lia.
Qed.
End Inv.

(** A leaf marked splittable passed the weighted test; only such leaves are split. *)
From Coq Require Import List Arith Bool ZArith QArith Qcanon Lia.
From Verif Require Import Base Num Rng Histogram Utils Criteria Solvers Tree Spec SolverSpec TreeSpec ListFacts NumFacts TreeFacts TreeThms TreeMore ColSim NestThms.
Import ListNotations.
Local Open Scope nat_scope.

Section Truth.
Context (M : math) (c : tcfg) (D : list (list Qc)) (L : list Qc) (FS I0 : list nat) (b0 : option Z) (N0 : nat).
Notation inv := (tinv M c D L FS I0 b0).

Definition passed (nd : node) : Prop := nd_computed nd = true /\ exists x, nd_red nd = Some x /\ weighted c N0 nd x = true.
Definition sound_flag (nd : node) : Prop := (nd_splittable nd = Some true -> passed nd) /\ (nd_left nd <> None -> passed nd).
Definition sound (t : tree) : Prop := t_n t = N0 /\ forall id nd, node_at t id nd -> sound_flag nd.

Lemma test_true nd e nd' e' t : nd_computed nd = true -> t_n t = N0 -> check_splittable M c t nd e = Ok (true, nd', e') -> nd' = nd /\ passed nd.
Proof.
  intros C TN H. unfold check_splittable in H. apply rbind_ok in H. destruct H as [ok [CC H]].
  destruct ok; cbn [negb] in H; [|discriminate H].
  apply rbind_ok in H. destruct H as [[[n1 o1] e2] [E1 H]]. unfold calculate_best_split in E1. rewrite C in E1. injection E1 as <- <- <-.
  destruct (nd_red nd) as [x|] eqn:RX; [|discriminate H].
  unfold calculate_best_split in H. rewrite C in H. cbn [rbind] in H. rewrite RX in H. cbn [opt_res rbind] in H. rewrite TN in H.
  apply ok_pair_inv in H. destruct H as [H _]. injection H as H <-. split; auto. split; auto. exists x. auto.
Qed.
Lemma put_sound t id nd : sound t -> sound_flag nd -> sound (put_node t id nd).
Proof.
  intros [TN S] F. split; [exact TN|]. intros j x A. unfold node_at in A. cbn [put_node set_nodes t_nodes] in A. rewrite set_nth_nth in A.
  destruct (nth_error (t_nodes t) id) eqn:E.
  - destruct (Nat.eqb_spec j id); [injection A as <-; auto|eauto].
  - apply (S j). unfold node_at. destruct (Nat.eqb_spec j id); subst; auto; congruence.
Qed.
Lemma scan_sound s pos id s' : inv (sc_tree s) -> sound (sc_tree s) -> In id (t_leaves (sc_tree s)) -> scan_leaf M c s (pos, id) = Ok s' -> sound (sc_tree s').
Proof.
  intros T SD IL H. unfold scan_leaf in H. destruct (sc_stop s); [injection H as <-; auto|].
  apply rbind_ok in H. destruct H as [nd [A H]]. apply nth_res_ok in A. change (node_at (sc_tree s) id nd) in A.
  assert (LF : nd_left nd = None). { apply (ti_leaves _ _ _ _ _ _ _ _ T) in IL. destruct IL as [x [H1 H2]]. unfold node_at in *. congruence. }
  destruct (proj2 SD _ _ A) as [F1 F2].
  apply rbind_ok in H. destruct H as [ok [CC H]]. destruct ok; cbn [negb] in H.
  2:{ injection H as <-. cbn [sc_tree]. apply put_sound; auto. split; [discriminate|cbn; congruence]. }
  match type of H with (if ?b then _ else _) = _ => destruct b end; [injection H as <-; auto|].
  apply rbind_ok in H. destruct H as [[[nd1 red] e1] [EB H]]. pose proof (ti_node _ _ _ _ _ _ _ _ T _ _ A) as N.
  destruct (best_split_ok _ _ _ _ _ _ _ _ _ _ _ _ N LF (or_intror CC) EB) as [K1 [K2 [K3 [K4 [K5 K6]]]]].
  assert (F3 : sound_flag nd1).
  { split; [|rewrite (ss_left _ _ K3); congruence]. rewrite K6. intros Z. destruct (F1 Z) as [C _]. destruct (K1 C) as [-> _]. auto. }
  cbv zeta in H. set (t2 := if nd_computed nd then put_node (sc_tree s) id nd1 else pay (put_node (sc_tree s) id nd1) (nd_queries nd1)) in *.
  assert (S2 : sound t2). { unfold t2. destruct (nd_computed nd); [apply put_sound; auto|]. exact (put_sound _ id nd1 SD F3). }
  apply rbind_ok in H. destruct H as [[[spl nd3] e3] [EQ H]]. injection H as <-. cbn [sc_tree]. apply put_sound; auto.
  destruct (nd_splittable nd1) as [b|] eqn:SP; [injection EQ as <- <- <-; auto|].
  apply rbind_ok in EQ. destruct EQ as [[[b nd2] e2] [EC EQ]]. pose proof (splittable_same _ _ _ _ _ _ _ _ K4 EC). subst nd2. injection EQ as <- <- <-.
  split; [|cbn; rewrite (ss_left _ _ K3); congruence]. cbn. intros Z. assert (b = true) by congruence. subst b. destruct (test_true _ _ _ _ _ K4 (proj1 S2) EC) as [_ Q]. exact Q.
Qed.
Lemma scans_sound t l : (forall pos id, In (pos, id) l -> nth_error (t_leaves t) pos = Some id) ->
  forall z z1, scan_ok M c D L FS I0 b0 t z -> sound (sc_tree z) -> foldM (scan_leaf M c) z l = Ok z1 -> sound (sc_tree z1).
Proof.
  induction l as [|[pos id] l IH]; intros HL z z1 S SD H; cbn [foldM] in H; [assert (z = z1) by congruence; now subst|].
  apply rbind_ok in H. destruct H as [z2 [E H]]. assert (P1 : nth_error (t_leaves t) pos = Some id) by (apply HL; now left).
  assert (S2 : scan_ok M c D L FS I0 b0 t z2) by (eapply scan_leaf_ok; eauto).
  apply (IH (fun p i J => HL p i (or_intror J)) z2 z1 S2); auto. apply (scan_sound z pos id z2); auto; [apply S|]. rewrite (so_leaves _ _ _ _ _ _ _ _ _ S). eapply nth_error_In; eauto.
Qed.
Lemma step_sound t e t' e' b : inv t -> sound t -> fit_step M c t e = Ok (t', e', b) -> sound t'.
Proof.
  intros T SD H. unfold fit_step in H. apply rbind_ok in H. destruct H as [s [ES H]]. pose proof (scan_ok_all _ _ _ _ _ _ _ _ _ _ T ES) as SO.
  assert (S0 : scan_ok M c D L FS I0 b0 t {| sc_tree := t; sc_env := e; sc_best := None; sc_stop := false |}) by (constructor; cbn; auto).
  pose proof (scans_sound t _ (leaf_places (t_leaves t)) _ _ S0 SD ES) as A1.
  destruct SO as [T1 L1 S1 NN1 B1]. cbv zeta in H. apply rbind_ok in H. destruct H as [[[t3 e3] cont] [EC H]]. apply rbind_ok in H. destruct H as [d [ED H]]. apply ok_pair_inv in H. destruct H as [H _]. apply pair_equal_spec in H. destruct H as [<- _].
  enough (K : sound t3) by exact K.
  destruct (sc_best s) as [[[pos id] x]|]; [|assert (sc_tree s = t3) by congruence; now subst].
  destruct (xlt x (Fin (tc_min_imp c))) eqn:X; [|assert (sc_tree s = t3) by congruence; now subst].
  apply rbind_ok in EC. destruct EC as [[t2 e2] [E2 EC]]. cbn [fst snd] in EC. destruct B1 as [P [nd [A [LF [CC [RX SP]]]]]].
  destruct (fit_step_split _ _ _ _ _ _ _ _ _ _ _ _ _ _ _ T1 P A LF CC RX X E2) as [nl [nr [nd' [TE [A' [EN' [TI NW]]]]]]].
  apply rbind_ok in EC. destruct EC as [nd2 [EN EC]]. apply nth_res_ok in EN. cbn [inc_splits t_nodes] in EN. assert (nd2 = nd') by (unfold node_at in *; congruence). subst nd2.
  apply ok_pair_inv in EC. destruct EC as [EC _]. apply pair_equal_spec in EC. destruct EC as [<- _].
  assert (LT : id < length (t_nodes (sc_tree s))) by (apply nth_error_Some; unfold node_at in A; congruence).
  destruct A1 as [TN FL]. assert (PD : passed nd) by (exact (proj1 (FL _ _ A) SP)).
  split; [rewrite TE; exact TN|]. intros j xx Ax. unfold node_at in Ax. cbn [set_depth set_leaves put_node set_nodes inc_splits t_nodes] in Ax. rewrite TE in Ax. cbn [set_nodes t_nodes] in Ax.
  rewrite set_nth_nth, !set_nth_app_nth, Nat.eqb_refl in Ax by auto. destruct (Nat.eqb_spec j id) as [->|NE].
  - injection Ax as <-. subst nd'. split; intros _; exact PD.
  - destruct (Nat.ltb_spec j (length (t_nodes (sc_tree s)))); [eapply FL; eauto|].
    assert (LV : forall i, In i [length (t_nodes (sc_tree s)); S (length (t_nodes (sc_tree s)))] -> forall y, nth_error (t_nodes t2) i = Some y -> nd_left y = None).
    { intros i Ii y Y. assert (IL : In i (t_leaves (set_leaves (inc_splits t2) (remove_nth pos (t_leaves (sc_tree s)) ++ [length (t_nodes (sc_tree s)); S (length (t_nodes (sc_tree s)))])))) by (cbn; apply in_or_app; auto).
      apply (ti_leaves _ _ _ _ _ _ _ _ TI) in IL. destruct IL as [z [Z1 Z2]]. unfold node_at in Z1. cbn in Z1. congruence. }
    assert (BL : nd_left nl = None /\ nd_left nr = None).
    { split; [apply (LV (length (t_nodes (sc_tree s))))|apply (LV (S (length (t_nodes (sc_tree s)))))]; try (cbn; tauto); rewrite TE; cbn [set_nodes t_nodes]; rewrite nth_error_app2 by (rewrite set_nth_length; lia); rewrite set_nth_length; [rewrite Nat.sub_diag|replace (S (length (t_nodes (sc_tree s))) - length (t_nodes (sc_tree s))) with 1 by lia]; reflexivity. }
    destruct BL as [BL BR]. destruct NW as (W1 & W2 & _).
    destruct (j - length (t_nodes (sc_tree s))) as [|[|k]]; cbn in Ax; [injection Ax as <-|injection Ax as <-|destruct k; discriminate Ax]; split; congruence.
Qed.
Lemma loop_sound fuel : forall t e t' e', inv t -> sound t -> fit_loop M c fuel t e = Ok (t', e') -> sound t'.
Proof.
  induction fuel as [|fuel IH]; intros t e t' e' T S H; cbn [fit_loop] in H; apply rbind_ok in H; destruct H as [stop [EF H]]; destruct stop.
  - apply ok_pair_inv in H. destruct H as [<- _]. auto.
  - discriminate H.
  - apply ok_pair_inv in H. destruct H as [<- _]. auto.
  - apply rbind_ok in H. destruct H as [[[t1 e1] cont] [ES H]]. pose proof (step_sound _ _ _ _ _ T S ES) as S1. destruct cont; [|apply ok_pair_inv in H; destruct H as [<- _]; auto].
    destruct (fit_step_tinv _ _ _ _ _ _ _ _ _ _ _ _ T ES) as [T1 _]. eauto.
Qed.
End Truth.

Lemma built_sound P M c a e t : built P M c a e t -> train_rows a <> [] -> sound c (length (ta_labels a)) t.
Proof.
  intros HB NE. destruct (built_loop P M c a e t HB NE) as (t0 & e0 & d & fuel & e1 & HN & HL & T0 & _).
  destruct (new_spec _ _ _ _ _ _ HN) as (nd0 & e2 & ENN & ET & _).
  eapply loop_sound; [exact T0| |exact HL]. split; [rewrite ET; reflexivity|]. intros j x Ax. rewrite ET in Ax. unfold node_at in Ax. destruct j as [|[|j]]; cbn in Ax; try discriminate Ax. injection Ax as <-.
  unfold node_new in ENN. apply rbind_ok in ENN. destruct ENN as [[fs g] [_ Q]]. apply rbind_ok in Q. destruct Q as [_ [_ Q]]. apply rbind_ok in Q. destruct Q as [dd [_ Q]].
  apply rbind_ok in Q. destruct Q as [ll [_ Q]]. apply rbind_ok in Q. destruct Q as [mm [_ Q]]. apply rbind_ok in Q. destruct Q as [cs [_ Q]]. apply ok_pair_inv in Q. destruct Q as [<- _]. split; cbn; congruence.
Qed.
